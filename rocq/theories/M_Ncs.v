(** Model of javascore/nativecoin: NativeCoinService.java with the token contract OwnerBasedIRC31Supplier.java it owns.
    Names of coins are numbers (only compared); [tid] is generateTokenId (94-96), the hash of a name.  Of IRC31Basic (a
    library outside the repository) the balances are modelled: transfers need 0 <= value <= balance, mint adds, burn
    needs the balance.  The chain keeps native coins; only the balance of the service is modelled (it can grow only by
    the payable methods).  What other contracts decide is given with each call ([ext]): whether the token contract lets
    the service act (approval, ownership), whether receivers accept, whether the message center takes the message.
    Receivers do not call back.  Texts of responses, log lines and getters are left out; [balanceOf] is the state. *)
From Coq Require Import ZArith List Bool.
From Verif Require Import Base M_JMap M_JBmc.
Import ListNotations.
Open Scope Z_scope.

Definition FEE_DENOMINATOR : Z := 10000.   (* 40 *)
(** AssetTransferDetail.java; Asset.java (the amount may be null) *)
Record detail := Detail { d_coin : Z; d_amount : Z; d_fee : Z }.
Record asset := Asset { as_coin : Z; as_amount : option Z }.
(** BTPAddress: network and account; the account may be no address here *)
Record btpaddr := BtpAddr { b_net : Z; b_acc : option Z }.
(** TransferTransaction.java *)
Record ntx := NTx { t_from : Z; t_to : btpaddr; t_assets : list detail }.
(** NCSMessage.java with TransferRequest.java, TransferResponse.java; [BOther]: any other type; the assets may be null *)
Inductive body := BRequest (to : option Z) (assets : option (list asset)) | BResponse (code : Z) | BUnknown | BOther.
Definition RC_OK : Z := 0.
Definition RC_ERR : Z := 1.
(** messages to the message center, and events *)
Inductive nout :=
| NSend (to sn : Z) (b : body)
| NStart (owner : Z) (to : btpaddr) (sn : Z) (l : list detail)
| NEnd (owner sn code : Z)
| NUnknownResponse (from sn : Z)
| NPay (to amount : Z)           (* native coins paid for a request; not an event *)
| NReclaim (owner c amount : Z). (* a reclaim; not an event *)
(** the database of the service, its native coins, and the database of the token contract *)
Record ncs := Ncs {
  n_reg : list Z;                       (* coinNames *)
  n_bal : list ((Z * Z) * (Z * Z));     (* balances: (coin, owner) -> locked, refundable *)
  n_fee : list (Z * Z);                 (* feeBalances *)
  n_tx : list (Z * ntx);                (* transactions *)
  n_sn : Z; n_ratio : Z;                (* properties *)
  n_owners : list Z;
  n_coins : Z;
  n_tok : list ((Z * Z) * Z);           (* token balances: (id, account) *)
  n_sup : list (Z * Z);                 (* supplies *)
  n_out : list nout }.
(** what the other contracts do in this call *)
Record ext := Ext { x_token : bool; x_receiver : bool; x_bmc : bool }.

Definition set_reg s v := Ncs v (n_bal s) (n_fee s) (n_tx s) (n_sn s) (n_ratio s) (n_owners s) (n_coins s) (n_tok s) (n_sup s) (n_out s).
Definition set_bal s v := Ncs (n_reg s) v (n_fee s) (n_tx s) (n_sn s) (n_ratio s) (n_owners s) (n_coins s) (n_tok s) (n_sup s) (n_out s).
Definition set_nfee s v := Ncs (n_reg s) (n_bal s) v (n_tx s) (n_sn s) (n_ratio s) (n_owners s) (n_coins s) (n_tok s) (n_sup s) (n_out s).
Definition set_tx s v := Ncs (n_reg s) (n_bal s) (n_fee s) v (n_sn s) (n_ratio s) (n_owners s) (n_coins s) (n_tok s) (n_sup s) (n_out s).
Definition set_nsn s v := Ncs (n_reg s) (n_bal s) (n_fee s) (n_tx s) v (n_ratio s) (n_owners s) (n_coins s) (n_tok s) (n_sup s) (n_out s).
Definition set_ratio s v := Ncs (n_reg s) (n_bal s) (n_fee s) (n_tx s) (n_sn s) v (n_owners s) (n_coins s) (n_tok s) (n_sup s) (n_out s).
Definition set_nowners s v := Ncs (n_reg s) (n_bal s) (n_fee s) (n_tx s) (n_sn s) (n_ratio s) v (n_coins s) (n_tok s) (n_sup s) (n_out s).
Definition set_coins s v := Ncs (n_reg s) (n_bal s) (n_fee s) (n_tx s) (n_sn s) (n_ratio s) (n_owners s) v (n_tok s) (n_sup s) (n_out s).
Definition set_tok s v := Ncs (n_reg s) (n_bal s) (n_fee s) (n_tx s) (n_sn s) (n_ratio s) (n_owners s) (n_coins s) v (n_sup s) (n_out s).
Definition set_sup s v := Ncs (n_reg s) (n_bal s) (n_fee s) (n_tx s) (n_sn s) (n_ratio s) (n_owners s) (n_coins s) (n_tok s) v (n_out s).
Definition emitn s o := Ncs (n_reg s) (n_bal s) (n_fee s) (n_tx s) (n_sn s) (n_ratio s) (n_owners s) (n_coins s) (n_tok s) (n_sup s) (n_out s ++ [o]).

Definition need {A} (b : bool) (k : option A) : option A := if b then k else None.
Definition nbind {A B} (o : option A) (k : A -> option B) : option B := match o with Some x => k x | None => None end.
Definition mem (c : Z) (l : list Z) : bool := existsb (Z.eqb c) l.

Section NCS.
(** Context.getAddress(), name, bmc, Context.getOwner() *)
Variables self name bmc deployer : Z.
Variable tid : Z -> Z.

(** OwnerManagerImpl.java 95-101 *)
Definition nisOwner (s : ncs) (a : Z) : bool := (a =? deployer) || mem a (n_owners s).
(** OwnerManagerImpl.java 47-56: the last takes the place of the one removed *)
Fixpoint odel (a : Z) (l : list Z) : list Z :=
  match l with
  | [] => []
  | x :: l' => if a =? x then match l' with [] => [] | y :: _ => last l' y :: removelast l' end else x :: odel a l'
  end.

(** 397-409 *)
Definition getBalance (s : ncs) (c o : Z) : Z * Z := match aget zz_eqb (c, o) (n_bal s) with Some b => b | None => (0, 0) end.
Definition setBalance (s : ncs) (c o : Z) (b : Z * Z) : ncs := set_bal s (aput zz_eqb (c, o) b (n_bal s)).
(** 411-423 *)
Definition lock (s : ncs) (c o v : Z) : ncs := let b := getBalance s c o in setBalance s c o (fst b + v, snd b).
Definition unlock (s : ncs) (c o v : Z) : ncs := let b := getBalance s c o in setBalance s c o (fst b - v, snd b).
(** 425-434 *)
Definition refund (s : ncs) (c o v : Z) : ncs :=
  let b := getBalance s c o in setBalance s c o (fst b - v, if o =? self then snd b else snd b + v).
(** 436-439 *)
Definition getFee (s : ncs) (c : Z) : Z := match aget Z.eqb c (n_fee s) with Some f => f | None => 0 end.
Definition addFee (s : ncs) (c v : Z) : ncs := set_nfee s (aput Z.eqb c (getFee s c + v) (n_fee s)).

(** the token contract *)
Definition tokOf (s : ncs) (i a : Z) : Z := match aget zz_eqb (i, a) (n_tok s) with Some v => v | None => 0 end.
Definition putTok (s : ncs) (i a v : Z) : ncs := set_tok s (aput zz_eqb (i, a) v (n_tok s)).
Definition supOf (s : ncs) (i : Z) : Z := match aget Z.eqb i (n_sup s) with Some v => v | None => 0 end.
(** IRC31Basic transferFrom *)
Definition move (s : ncs) (from to i v : Z) : option ncs :=
  if (v <? 0) || (tokOf s i from <? v) then None
  else let s1 := putTok s i from (tokOf s i from - v) in Some (putTok s1 i to (tokOf s1 i to + v)).
Fixpoint moveAll (s : ncs) (from to : Z) (l : list (Z * Z)) : option ncs :=
  match l with [] => Some s | (i, v) :: l' => nbind (move s from to i v) (fun s' => moveAll s' from to l') end.
(** OwnerBasedIRC31Supplier.java 42-71: supplies, then balances *)
Definition mintOne (s : ncs) (to i v : Z) : option ncs :=
  if v <=? 0 then None
  else let s1 := set_sup s (aput Z.eqb i (supOf s i + v) (n_sup s)) in Some (putTok s1 i to (tokOf s1 i to + v)).
Fixpoint mintAll (s : ncs) (to : Z) (l : list (Z * Z)) : option ncs :=
  match l with [] => Some s | (i, v) :: l' => nbind (mintOne s to i v) (fun s' => mintAll s' to l') end.
(** 73-104; the token id must have a supply *)
Definition burnOne (s : ncs) (from i v : Z) : option ncs :=
  if v <=? 0 then None
  else match aget Z.eqb i (n_sup s) with
       | None => None
       | Some _ =>
           let s1 := set_sup s (aput Z.eqb i (supOf s i - v) (n_sup s)) in
           if tokOf s1 i from <? v then None else Some (putTok s1 i from (tokOf s1 i from - v))
       end.
Fixpoint burnAll (s : ncs) (from : Z) (l : list (Z * Z)) : option ncs :=
  match l with [] => Some s | (i, v) :: l' => nbind (burnOne s from i v) (fun s' => burnAll s' from l') end.

(** 582-600 *)
Definition newDetail (c v ratio : Z) : option detail :=
  let fee0 := Z.quot (v * ratio) FEE_DENOMINATOR in
  let fee := if (0 <? ratio) && (fee0 =? 0) then 1 else fee0 in
  if v - fee <? 1 then None else Some (Detail c (v - fee) fee).
(** 246-263 *)
Fixpoint lockAll (s : ncs) (owner ratio : Z) (l : list (Z * Z)) : option (ncs * list detail) :=
  match l with
  | [] => Some (s, [])
  | (c, v) :: l' => nbind (newDetail c v ratio) (fun d =>
      nbind (lockAll (lock s c owner v) owner ratio l') (fun r => Some (fst r, d :: snd r)))
  end.
(** 296-305 *)
Definition sendBmc (s : ncs) (x : ext) (to sn : Z) (b : body) : option ncs := if x_bmc x then Some (emitn s (NSend to sn b)) else None.
(** 246-284; a new request carries coins and amounts *)
Definition sendRequest (s : ncs) (x : ext) (owner : Z) (to : btpaddr) (l : list (Z * Z)) : option ncs :=
  let ratio := if owner =? self then 0 else n_ratio s in
  nbind (lockAll s owner ratio l) (fun r =>
  let '(s1, ds) := r in
  let sn := n_sn s1 + 1 in
  let s2 := set_nsn s1 sn in
  let s3 := set_tx s2 (aput Z.eqb sn (NTx owner to ds) (n_tx s2)) in
  nbind (sendBmc s3 x (b_net to) sn (BRequest (b_acc to) (Some (map (fun d => Asset (d_coin d) (Some (d_amount d))) ds)))) (fun s4 =>
  Some (emitn s4 (NStart owner to sn ds)))).

(** 458-477: coins to mint, and the native amount named last *)
Fixpoint sortAssets (reg : list Z) (l : list asset) : option (list (Z * Z) * option Z) :=
  match l with
  | [] => Some ([], None)
  | a :: l' =>
      match as_amount a with
      | None => None
      | Some v =>
          if v <? 1 then None
          else if mem (as_coin a) reg then nbind (sortAssets reg l') (fun r => Some ((as_coin a, v) :: fst r, snd r))
          else if as_coin a =? name then nbind (sortAssets reg l') (fun r => Some (fst r, match snd r with Some w => Some w | None => Some v end))
          else None
      end
  end.
(** 449-495 *)
Definition handleRequest (s : ncs) (x : ext) (from sn : Z) (to : option Z) (assets : option (list asset)) : option ncs :=
  nbind to (fun a => nbind assets (fun l => nbind (sortAssets (n_reg s) l) (fun r =>
  nbind (match snd r with
         | None => Some s
         | Some v => if (n_coins s <? v) || negb (x_receiver x) then None else Some (emitn (set_coins s (n_coins s - v)) (NPay a v))
         end) (fun s1 =>
  nbind (match fst r with
         | [] => Some s1
         | ms => if x_token x then mintAll s1 a (map (fun m => (tid (fst m), snd m)) ms) else None
         end) (fun s2 =>
  sendBmc s2 x from sn (BResponse RC_OK)))))).
(** 509-527, 534-545: every asset of the transaction in turn *)
Fixpoint settle (s : ncs) (owner : Z) (l : list detail) : option ncs :=
  match l with
  | [] => Some s
  | d :: l' => if (d_coin d =? name) || mem (d_coin d) (n_reg s)
               then settle (addFee (unlock s (d_coin d) owner (d_amount d + d_fee d)) (d_coin d) (d_fee d)) owner l' else None
  end.
Fixpoint giveBack (s : ncs) (owner : Z) (l : list detail) : option ncs :=
  match l with
  | [] => Some s
  | d :: l' => if (d_coin d =? name) || mem (d_coin d) (n_reg s)
               then giveBack (refund s (d_coin d) owner (d_amount d + d_fee d)) owner l' else None
  end.
(** 497-552 *)
Definition handleResponse (s : ncs) (x : ext) (sn code : Z) : option ncs :=
  match aget Z.eqb sn (n_tx s) with
  | None => Some s
  | Some t =>
      nbind (if code =? RC_OK
             then nbind (settle s (t_from t) (t_assets t)) (fun s1 =>
                  match filter (fun d => negb (d_coin d =? name)) (t_assets t) with
                  | [] => Some s1
                  | ds => if x_token x then burnAll s1 self (map (fun d => (tid (d_coin d), d_amount d)) ds) else None
                  end)
             else giveBack s (t_from t) (t_assets t)) (fun s2 =>
      Some (emitn (set_tx s2 (adel Z.eqb sn (n_tx s2))) (NEnd (t_from t) sn code)))
  end.

Inductive nop :=
| Register (caller c : Z)
| SetFeeRatio (caller r : Z)
| NAddOwner (caller a : Z) | NRemoveOwner (caller a : Z)
| Reclaim (caller c v : Z)
| TransferNative (caller v : Z) (to : btpaddr)
| Transfer (caller c v : Z) (to : btpaddr)
| TransferBatch (caller : Z) (cs vs : list Z) (v : Z) (to : btpaddr)
| HandleMessage (caller from sn : Z) (b : option body)   (* None: the bytes cannot be read *)
| HandleError (caller sn : Z)
| MoveTokens (from to i v : Z).                          (* somebody else calls the token contract *)

Definition nexec (s : ncs) (x : ext) (o : nop) : option ncs :=
  match o with
  | Register c n =>        (* 117-122 *)
      need (nisOwner s c) (need (negb (n =? name) && negb (mem n (n_reg s))) (Some (set_reg s (n_reg s ++ [n]))))
  | SetFeeRatio c r =>     (* 565-574 *)
      need (nisOwner s c) (need ((1 <=? r) && (r <? FEE_DENOMINATOR)) (Some (set_ratio s r)))
  | NAddOwner c a =>       (* OwnerManagerImpl.java 66-70 *)
      need (nisOwner s c) (need (negb (a =? deployer) && negb (mem a (n_owners s))) (Some (set_nowners s (n_owners s ++ [a]))))
  | NRemoveOwner c a =>    (* 73-77 *)
      need (nisOwner s c) (need (negb (a =? deployer) && mem a (n_owners s)) (Some (set_nowners s (odel a (n_owners s)))))
  | Reclaim c n v =>       (* 168-183 *)
      let b := getBalance s n c in
      need ((0 <? v) && (v <=? snd b)) (
      let s1 := setBalance s n c (fst b, snd b - v) in
      if n =? name then need ((v <=? n_coins s1) && x_receiver x) (Some (emitn (set_coins s1 (n_coins s1 - v)) (NReclaim c n v)))
      else need (x_token x && x_receiver x) (nbind (move s1 self c (tid n) v) (fun s2 => Some (emitn s2 (NReclaim c n v)))))
  | TransferNative c v to =>   (* 185-191 *)
      need (0 <? v) (sendRequest (set_coins s (n_coins s + v)) x c to [(name, v)])
  | Transfer c n v to =>   (* 193-201 *)
      need ((0 <? v) && negb (n =? name) && mem n (n_reg s) && x_token x) (
      nbind (move s c self (tid n) v) (fun s1 => sendRequest s1 x c to [(n, v)]))
  | TransferBatch c cs vs v to =>   (* 203-230 *)
      need ((length cs =? length vs)%nat && (0 <=? v) && forallb (fun n => negb (n =? name) && mem n (n_reg s)) cs && x_token x) (
      nbind (moveAll (set_coins s (n_coins s + v)) c self (map (fun p => (tid (fst p), snd p)) (combine cs vs))) (fun s1 =>
      sendRequest s1 x c to (combine cs vs ++ (if 0 <? v then [(name, v)] else []))))
  | HandleMessage c from sn b =>    (* 321-344 *)
      need (c =? bmc) (nbind b (fun m =>
      match m with
      | BRequest to l => handleRequest s x from sn to l
      | BResponse code => handleResponse s x sn code
      | BUnknown => Some (emitn s (NUnknownResponse from sn))
      | BOther => sendBmc s x from sn BUnknown
      end))
  | HandleError c sn => need (c =? bmc) (handleResponse s x sn RC_ERR)   (* 346-353 *)
  | MoveTokens a b i v => need (negb (a =? self) && x_token x && x_receiver x) (move s a b i v)
  end.
(** NCSProperties.java DEFAULT *)
Definition ninit : ncs := Ncs [] [] [] [] 0 10 [] 0 [] [] [].
Definition nstep (s : ncs) (xo : ext * nop) : ncs := match nexec s (fst xo) (snd xo) with Some s' => s' | None => s end.
Definition nrun (l : list (ext * nop)) : ncs := fold_left nstep l ninit.
End NCS.
