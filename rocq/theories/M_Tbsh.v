(** Model of javascore/bsh: ServiceHandler.java (the token service) and the tokens it keeps, IRC2Basic.java.
    Names of tokens are numbers (only compared; 0 is the empty name).  The receiver of a transfer is a BTP address: network, and the
    account if it is an address of this chain (handleBTPError needs one).  Stored messages are the values they are written from; their
    bytes are in M_TbshBytes.  The token contracts at all addresses are IRC2Basic; every account is a number.  What others decide is
    given with each call ([text_]): whether the message center takes the message, whether a receiving contract accepts tokens.
    Receivers do not call back.  Texts of answers, log lines, getters and the variable fromAddr (only written to be read at once) are left
    out. *)
From Coq Require Import ZArith List Bool.
From Verif Require Import Base M_JMap M_JBmc.
Import ListNotations.
Open Scope Z_scope.

Definition T_DENOMINATOR : Z := 10000.   (* 40 *)
Definition EMPTY_NAME : Z := 0.
(** Asset.java *)
Record tasset := TAsset { a_name : Z; a_value : Z; a_fee : Z }.
(** Balance.java *)
Record tbal := TBal { l_usable : Z; l_locked : Z; l_refundable : Z }.
Record taddr := TAddr { ta_net : Z; ta_acc : option Z }.
(** TransferAsset.java *)
Record tmove := TMove { m_from : Z; m_to : taddr; m_assets : list tasset }.
(** the messages (203-215, 397-426): a transfer with the receiver, if it is an address here; an answer; "unknown"; anything else *)
Inductive tbody := TRequest (to : option Z) (assets : list tasset) | TAnswer (code : Z) | TUnknown | TOther.
Definition T_OK : Z := 0.
Definition T_ERR : Z := 1.
Inductive tout :=
| TSend (to sn : Z) (b : tbody)
| TStart (owner : Z) (to : taddr) (sn : Z) (l : list tasset)
| TEnd (owner sn code : Z)
(* not events: *)
| TDeposit (tok n from v : Z)         (* tokens received *)
| TPaid (tok n to v : Z)              (* tokens paid for a request *)
| TDone (owner sn code : Z) (l : list tasset)   (* a transfer answered *)
| TUndone (owner sn : Z) (l : list tasset)      (* a transfer ended by an error *)
| TGather (sn : Z) (l : list tasset)  (* fees sent off *)
| TFeesEnd (sn code : Z) (l : list tasset).
Record tb := Tb {
  b_addr : list (Z * Z);                (* tokenAddrDb *)
  b_names : list Z;                     (* tokenNameDb *)
  b_toks : list (Z * (Z * Z));          (* tokenDb: name, fee numerator *)
  b_bal : list ((Z * Z) * tbal);        (* balanceDB: (name, user) *)
  b_owners : list (Z * bool); b_count : Z;   (* ownersDb, numberOfOwners *)
  b_fees : list (Z * Z);                (* feeCollector *)
  b_pend : list (Z * tmove);            (* pendingDb *)
  b_pfees : list (Z * tmove);           (* pendingFeesDb *)
  b_sn : Z;                             (* serialNo *)
  b_led : list ((Z * Z) * Z);           (* balances of the tokens: (token, account) *)
  b_out : list tout }.
Record text_ := Text_ { y_bmc : bool; y_receiver : bool }.

Definition setAddr s v := Tb v (b_names s) (b_toks s) (b_bal s) (b_owners s) (b_count s) (b_fees s) (b_pend s) (b_pfees s) (b_sn s) (b_led s) (b_out s).
Definition setNames s v := Tb (b_addr s) v (b_toks s) (b_bal s) (b_owners s) (b_count s) (b_fees s) (b_pend s) (b_pfees s) (b_sn s) (b_led s) (b_out s).
Definition setToks s v := Tb (b_addr s) (b_names s) v (b_bal s) (b_owners s) (b_count s) (b_fees s) (b_pend s) (b_pfees s) (b_sn s) (b_led s) (b_out s).
Definition setBal s v := Tb (b_addr s) (b_names s) (b_toks s) v (b_owners s) (b_count s) (b_fees s) (b_pend s) (b_pfees s) (b_sn s) (b_led s) (b_out s).
Definition setOwners s v k := Tb (b_addr s) (b_names s) (b_toks s) (b_bal s) v k (b_fees s) (b_pend s) (b_pfees s) (b_sn s) (b_led s) (b_out s).
Definition setFees s v := Tb (b_addr s) (b_names s) (b_toks s) (b_bal s) (b_owners s) (b_count s) v (b_pend s) (b_pfees s) (b_sn s) (b_led s) (b_out s).
Definition setPend s v := Tb (b_addr s) (b_names s) (b_toks s) (b_bal s) (b_owners s) (b_count s) (b_fees s) v (b_pfees s) (b_sn s) (b_led s) (b_out s).
Definition setPfees s v := Tb (b_addr s) (b_names s) (b_toks s) (b_bal s) (b_owners s) (b_count s) (b_fees s) (b_pend s) v (b_sn s) (b_led s) (b_out s).
Definition setSn s v := Tb (b_addr s) (b_names s) (b_toks s) (b_bal s) (b_owners s) (b_count s) (b_fees s) (b_pend s) (b_pfees s) v (b_led s) (b_out s).
Definition setLed s v := Tb (b_addr s) (b_names s) (b_toks s) (b_bal s) (b_owners s) (b_count s) (b_fees s) (b_pend s) (b_pfees s) (b_sn s) v (b_out s).
Definition emitT s o := Tb (b_addr s) (b_names s) (b_toks s) (b_bal s) (b_owners s) (b_count s) (b_fees s) (b_pend s) (b_pfees s) (b_sn s) (b_led s) (b_out s ++ [o]).

Definition tneed {A} (b : bool) (k : option A) : option A := if b then k else None.
Definition tbind {A B} (o : option A) (k : A -> option B) : option B := match o with Some x => k x | None => None end.

Section TBSH.
(** Context.getAddress(), bmcDb, Context.getOwner(); which addresses are contracts *)
Variables self bmc deployer : Z.
Variable isContract : Z -> bool.

(** 83-88, 101-106 *)
Definition t_isOwner (s : tb) (a : Z) : bool := (a =? deployer) || match aget Z.eqb a (b_owners s) with Some b => b | None => false end.
(** 385-395 *)
Definition t_getBalance (s : tb) (u n : Z) : tbal := match aget zz_eqb (n, u) (b_bal s) with Some b => b | None => TBal 0 0 0 end.
Definition t_setBalance (s : tb) (u n us lk rf : Z) : tb :=
  let b := t_getBalance s u n in
  setBal s (aput zz_eqb (n, u) (TBal (l_usable b + us) (l_locked b + lk) (l_refundable b + rf)) (b_bal s)).
Definition t_getFee (s : tb) (n : Z) : Z := match aget Z.eqb n (b_fees s) with Some f => f | None => 0 end.
Definition t_setFee (s : tb) (n v : Z) : tb := setFees s (aput Z.eqb n v (b_fees s)).
(** 449-453 *)
Definition t_nextSn (s : tb) : tb := setSn s (b_sn s + 1).
Definition t_send (s : tb) (y : text_) (to sn : Z) (b : tbody) : option tb := tneed (y_bmc y) (Some (emitT s (TSend to sn b))).

(** IRC2Basic.java 123-129 *)
Definition ledOf (s : tb) (tok a : Z) : Z := match aget zz_eqb (tok, a) (b_led s) with Some v => v | None => 0 end.
Definition putLed (s : tb) (tok a v : Z) : tb := setLed s (aput zz_eqb (tok, a) v (b_led s)).
(** 142-157: tokens sent to the service *)
Definition tokenFallback (s : tb) (tok from v : Z) : option tb :=
  if v =? 0 then None
  else match aget Z.eqb tok (b_toks s) with
       | None => None
       | Some (n, _) => if n =? EMPTY_NAME then None else Some (emitT (t_setBalance s from n v 0 0) (TDeposit tok n from v))
       end.
(** IRC2Basic.java 77-96 *)
Definition irc2 (s : tb) (y : text_) (tok from to v : Z) : option tb :=
  if (v <? 0) || (ledOf s tok from <? v) then None
  else let s1 := putLed s tok from (ledOf s tok from - v) in
       let s2 := putLed s1 tok to (ledOf s1 tok to + v) in
       if to =? self then tokenFallback s2 tok from v
       else if isContract to then tneed (y_receiver y) (Some s2) else Some s2.

(** 164-191; Z.quot rounds toward 0 as BigInteger.divide does.  The BTP address may be unreadable (None). *)
Definition t_transfer (s : tb) (y : text_) (sender n v : Z) (to : option taddr) : option tb :=
  match aget Z.eqb n (b_addr s) with
  | None => None
  | Some tok =>
      if v =? 0 then None
      else if l_usable (t_getBalance s sender n) <? v then None
      else tbind to (fun t =>
           match aget Z.eqb tok (b_toks s) with
           | None => None
           | Some (_, num) =>
               let s1 := t_setBalance s sender n (- v) v 0 in
               let fee := Z.quot (v * num) T_DENOMINATOR in
               let s2 := t_nextSn s1 in
               let l := [TAsset n (v - fee) fee] in
               let s3 := setPend s2 (aput Z.eqb (b_sn s2) (TMove sender t l) (b_pend s2)) in
               tbind (t_send s3 y (ta_net t) (b_sn s3) (TRequest (ta_acc t) l)) (fun s4 =>
               Some (emitT s4 (TStart sender t (b_sn s2) l)))
           end)
  end.
(** 216-238: only the first asset is paid *)
Definition t_request (s : tb) (y : text_) (from sn : Z) (to : option Z) (l : list tasset) : option tb :=
  tbind to (fun a => match l with
  | [] => None
  | x :: _ =>
      match aget Z.eqb (a_name x) (b_addr s) with
      | None => None
      | Some tok => tbind (irc2 s y tok self a (a_value x)) (fun s1 => t_send (emitT s1 (TPaid tok (a_name x) a (a_value x))) y from sn (TAnswer T_OK))
      end
  end).
(** 259-271 *)
Fixpoint t_settle (s : tb) (owner code : Z) (l : list tasset) : tb :=
  match l with
  | [] => s
  | x :: l' =>
      let tot := a_value x + a_fee x in
      t_settle (if code =? T_OK
                then let s1 := t_setBalance s owner (a_name x) 0 (- tot) 0 in t_setFee s1 (a_name x) (t_getFee s1 (a_name x) + a_fee x)
                else t_setBalance s owner (a_name x) tot (- tot) 0) owner code l'
  end.
(** 277-284 *)
Fixpoint t_feesBack (s : tb) (l : list tasset) : tb :=
  match l with [] => s | x :: l' => t_feesBack (t_setFee s (a_name x) (t_getFee s (a_name x) + a_value x)) l' end.
(** 239-289 *)
Definition t_answer (s : tb) (sn code : Z) : option tb :=
  match aget Z.eqb sn (b_pfees s) with
  | Some m =>
      let s1 := if code =? T_ERR then t_feesBack s (m_assets m) else s in
      Some (emitT (emitT (setPfees s1 (adel Z.eqb sn (b_pfees s1))) (TFeesEnd sn code (m_assets m))) (TEnd (m_from m) sn code))
  | None =>
      match aget Z.eqb sn (b_pend s) with
      | None => None
      | Some m =>
          let s1 := t_settle s (m_from m) code (m_assets m) in
          Some (emitT (emitT (setPend s1 (adel Z.eqb sn (b_pend s1))) (TDone (m_from m) sn code (m_assets m))) (TEnd (m_from m) sn code))
      end
  end.
(** 306-334: the receiver must be an address here; only the value of the first asset goes back *)
Definition t_error (s : tb) (sn : Z) : option tb :=
  match aget Z.eqb sn (b_pend s) with
  | None => None
  | Some m =>
      tbind (ta_acc (m_to m)) (fun _ => match m_assets m with
      | [] => None
      | x :: _ =>
          let s1 := t_setBalance s (m_from m) (a_name x) (a_value x) (- a_value x) 0 in
          Some (emitT (setPend s1 (adel Z.eqb sn (b_pend s1))) (TUndone (m_from m) sn (m_assets m)))
      end)
  end.
(** 366-375: a number and a stored list for every token with fees; the list grows *)
Fixpoint t_gather (s : tb) (caller : Z) (fa : taddr) (names : list Z) (acc : list tasset) : tb * list tasset :=
  match names with
  | [] => (s, acc)
  | n :: names' =>
      let f := t_getFee s n in
      if f =? 0 then t_gather s caller fa names' acc
      else let acc' := acc ++ [TAsset n f 0] in
           let s1 := t_nextSn s in
           let s2 := setPfees s1 (aput Z.eqb (b_sn s1) (TMove caller fa acc') (b_pfees s1)) in
           t_gather (t_setFee s2 n 0) caller fa names' acc'
  end.

Inductive top :=
| TAddOwner (caller a : Z) | TRemoveOwner (caller a : Z)
| TRegister (caller n num tok : Z)
| TTokens (tok from to v : Z)                       (* somebody moves their tokens; to the service: a deposit *)
| TTransfer (caller n v : Z) (to : option taddr)
| TMessage (caller from : Z) (svc : bool) (sn : Z) (b : option tbody)   (* svc: the right service name; None: unreadable bytes *)
| TError (caller : Z) (svc : bool) (sn : Z)
| TGatherFees (caller : Z) (fa : option taddr)
| TSetBalance (caller u n us lk rf : Z).

Definition texec (s : tb) (y : text_) (o : top) : option tb :=
  match o with
  | TAddOwner c a => tneed (t_isOwner s c) (Some (setOwners s (aput Z.eqb a true (b_owners s)) (b_count s + 1)))          (* 66-70 *)
  | TRemoveOwner c a => tneed (t_isOwner s c) (tneed (1 <? b_count s) (Some (setOwners s (aput Z.eqb a false (b_owners s)) (b_count s - 1))))   (* 76-81, 97-99 *)
  | TRegister c n num tok =>                       (* 113-122 *)
      tneed (t_isOwner s c) (match aget Z.eqb n (b_addr s) with
      | Some _ => None
      | None => let s1 := setAddr s (aput Z.eqb n tok (b_addr s)) in let s2 := setNames s1 (b_names s1 ++ [n]) in Some (setToks s2 (aput Z.eqb tok (n, num) (b_toks s2)))
      end)
  | TTokens tok from to v => tneed (negb (from =? self)) (irc2 s y tok from to v)
  | TTransfer c n v to => t_transfer s y c n v to
  | TMessage c from svc sn b =>                    (* 203-215, 290-295 *)
      tneed (c =? bmc) (tneed svc (tbind b (fun m =>
      match m with
      | TRequest to l => t_request s y from sn to l
      | TAnswer code => t_answer s sn code
      | TUnknown => Some s
      | TOther => t_send s y from (b_sn s) TUnknown
      end)))
  | TError c svc sn => tneed (c =? bmc) (tneed svc (t_error s sn))
  | TGatherFees c fa =>                            (* 361-382 *)
      tneed (c =? bmc) (tbind fa (fun t =>
      let '(s1, l) := t_gather s c t (b_names s) [] in
      match l with
      | [] => Some s1
      | _ => t_send (emitT s1 (TGather (b_sn s1) l)) y (ta_net t) (b_sn s1) (TRequest (ta_acc t) l)
      end))
  | TSetBalance c u n us lk rf => Some (t_setBalance s u n us lk rf)   (* 391-395: no check of the caller *)
  end.
(** 54-60, with the tokens [led] as they are when the service is deployed *)
Definition tinit (led : list ((Z * Z) * Z)) : tb := Tb [] [] [] [] [(deployer, true)] 1 [] [] [] 0 led [].
Definition tstep (s : tb) (yo : text_ * top) : tb := match texec s (fst yo) (snd yo) with Some s' => s' | None => s end.
Definition trun (led : list ((Z * Z) * Z)) (l : list (text_ * top)) : tb := fold_left tstep l (tinit led).
End TBSH.
