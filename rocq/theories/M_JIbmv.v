(** Model of the ICON block verifier contract, javascore/bmv/icon, BTPMessageVerifier.java, with the parts of EventLog.java
    and Validators.java it uses.  sha3-256 is the parameter [H]; recoverAddress (61-64: recovery of a key from a signature
    and its address) is [recover]; Address.fromString and toString are [addr_of] and [show], base64 decoding is [unbase64].
    [Err c] is the BMVException of code c (BMVException.java 124-136), [Panic] any other exception; either reverts the
    transaction.  Heights are not wrapped at 2^63. *)
From Coq Require Import String Ascii ZArith List Bool.
From Verif Require Import Base GoStr M_IntConv M_Rlp M_JBmv M_Wire M_Misc M_BtpAddr M_JMsg M_JMta M_JMpt M_JIcon.
Import ListNotations.
Open Scope Z_scope.

Local Notation bytes := (list Z).
Definition of_option {A} (o : option A) : result A := match o with Some a => Ok a | None => Panic end.

(** BMVProperties.java 29-33; the validators stored are not null: writing them failed otherwise *)
Record iprops := IProps { ip_bmc : bytes; ip_net : bytes; ip_last : Z; ip_vals : list bytes; ip_mta : jmta }.

(** EventLog.java 55-58; no parenthesis, no topic: an exception *)
Definition methodSignature (e : evlog) : option bytes :=
  match el_indexed e with
  | [] => None
  | s :: _ => match str_index s (str "(") with Some i => Some (firstn i s) | None => None end
  end.
(** MessageEvent.java 29-31 *)
Record msgevent := MsgEvent { me_next : bytes; me_seq : Z; me_msg : bytes }.
(** EventLog.java 60-69: null when it is another event *)
Definition toMessageEvent (e : evlog) : result (option msgevent) :=
  rbind (of_option (methodSignature e)) (fun name =>
  if bytes_eqb name (str "Message") then
    match el_indexed e, el_data e with
    | _ :: next :: (s0 :: s) :: _, msg :: _ => Ok (Some (MsgEvent next (BigIntSetBytes (s0 :: s)) msg))
    | _, _ => Panic
    end
  else Ok None).

Section BMV.
Variable H : bytes -> bytes.
Variable recover : bytes -> bytes -> option bytes.
Variable addr_of : bytes -> option bytes.
Variable show : bytes -> bytes.
Variable unbase64 : bytes -> option bytes.

(** Validators.java 53-73, StringUtil.java 52-59 *)
Fixpoint tokens (cur s : bytes) : list bytes :=
  match s with
  | [] => match cur with [] => [] | _ => [rev cur] end
  | c :: r => if c =? 44 then match cur with [] => tokens [] r | _ => rev cur :: tokens [] r end else tokens (c :: cur) r
  end.
Definition validators_of (s : bytes) : option (list bytes) :=
  let ts := tokens [] s in
  match all_some (map addr_of ts) with
  | Some l => Some l
  | None => match ts with [_] => obind (unbase64 s) (fun b => obind (fromBytes readValidators b) all_some) | _ => None end
  end.
(** BTPMessageVerifier.java 39-55, 66-68: [old] are the properties of an earlier version of the contract *)
Definition deploy (old : option iprops) (bmc net vals : bytes) (offset : Z) : option iprops :=
  obind (validators_of vals) (fun vs =>
  Some match old with
       | Some p => IProps bmc net (if ip_last p =? 0 then offset else ip_last p) vs (ip_mta p)
       | None => IProps bmc net offset vs (new_mta offset)
       end).

(** BTPMessageVerifier.java 243-261, the loop: [seen] are the addresses so far *)
Fixpoint count_votes (vals : list bytes) (msg : Z -> bytes) (vs : list ivote) (seen : list bytes) : result (list bytes) :=
  match vs with
  | [] => Ok seen
  | v :: r =>
      rbind (of_option (obind (iv_sig v) (fun sig => recover (H (msg (iv_time v))) sig))) (fun a =>
      if negb (existsb (bytes_eqb a) vals) then Err 2
      else if existsb (bytes_eqb a) seen then Err 2
      else count_votes vals msg r (seen ++ [a]))
  end.
(** BTPMessageVerifier.java 232-267 *)
Definition verifyVotes (votes : option ivotes) (height : Z) (hash : bytes) (vals : list bytes) : result unit :=
  match votes with
  | None => Err 4
  | Some vs =>
      rbind (count_votes vals (fun t => vote_bytes (VoteMsg height (is_round vs) 1 (Some hash) (is_part vs) t)) (is_items vs) []) (fun seen =>
      if zlen seen <=? Z.quot (zlen vals * 2) 3 then Err 2 else Ok tt)
  end.

(** BTPMessageVerifier.java 178-206, one turn of the loop: accumulator, validators and their hash *)
Definition verifyBlockUpdate (s : jmta * list bytes * bytes) (u : option iupdate) : result (jmta * list bytes * bytes) :=
  let '(mta, vals, vhash) := s in
  rbind (of_option (obind u iu_header)) (fun h =>
  rbind (of_option u) (fun u =>
  if j_height mta + 1 =? ih_height h then
    let hash := H (header_bytes h) in
    rbind (verifyVotes (iu_votes u) (ih_height h) hash vals) (fun _ =>
    rbind (if opt_eqb (Some vhash) (ih_nextVals h) then Ok (vals, vhash)
           else match iu_next u with
                | None => Err 4
                | Some next =>
                    rbind (of_option (validators_bytes next)) (fun b =>
                    if opt_eqb (Some (H b)) (ih_nextVals h) then rbind (of_option (all_some next)) (fun vs => Ok (vs, H b)) else Err 4)
                end) (fun nv =>
    rbind (of_option (mta_add H mta hash)) (fun mta' => Ok (mta', fst nv, snd nv))))
  else if j_height mta + 1 <? ih_height h then Err 8 else Err 9)).
(** BTPMessageVerifier.java 175-208 with 88-94: validators that did not change are stored again *)
Fixpoint verifyBlockUpdates (s : jmta * list bytes * bytes) (us : list (option iupdate)) : result (jmta * list bytes * bytes) :=
  match us with [] => Ok s | u :: r => rbind (verifyBlockUpdate s u) (fun s' => verifyBlockUpdates s' r) end.

(** BTPMessageVerifier.java 210-230; a null witness is used as one of no hashes except where its length is asked for *)
Definition verifyBlockProof (p : iblockproof) (mta : jmta) : result iheader :=
  match ib_witness p with
  | None => Err 5
  | Some w =>
      rbind (of_option (ib_header p)) (fun h =>
      if j_height mta <? ih_height h then Err 10
      else match (match iw_hashes w with
                  | Some ws => mta_verify H mta ws (H (header_bytes h)) (ih_height h) (iw_height w)
                  | None => if j_height mta =? iw_height w then Panic else mta_verify H mta [] (H (header_bytes h)) (ih_height h) (iw_height w)
                  end) with
           | Ok _ => Ok h
           | Err e => Err (if e =? 3 then 11 else 6)
           | Panic => Panic
           end)
  end.

(** MerklePatriciaTree.prove for an index; null proofs are an exception; MPTException becomes code 1 *)
Definition prove_index (root : option bytes) (m : mptproof) : result bytes :=
  match root, mp_proofs m with
  | Some r, Some (Some ps) => match mpt_prove H r (encodeKey (mp_index m)) ps with Err _ => Err 1 | x => x end
  | _, _ => Panic
  end.
Fixpoint prove_events (root : option bytes) (l : list (option mptproof)) : result (list evlog) :=
  match l with
  | [] => Ok []
  | m :: r =>
      rbind (of_option m) (fun m => rbind (prove_index root m) (fun b => rbind (of_option (fromBytes readEventLog b)) (fun e =>
      rbind (prove_events root r) (fun es => Ok (e :: es)))))
  end.
(** BTPMessageVerifier.java 147-173: the event logs of the receipt *)
Definition proveReceiptProof (p : option receiptproof) (root : option bytes) : result (list evlog) :=
  rbind (of_option p) (fun p =>
  rbind (prove_index root (rp_main p)) (fun b =>
  rbind (of_option (fromBytes readReceipt b)) (fun rc =>
  match rp_events p with
  | Some es => prove_events (rc_logsHash rc) es
  | None => Ok (rc_logs rc)
  end))).

(** BTPMessageVerifier.java 109-130: the loop over the logs; [seq] is next_seq *)
Fixpoint take_events (account bmc : bytes) (es : list evlog) (seq : Z) (msgs : list bytes) : result (Z * list bytes) :=
  match es with
  | [] => Ok (seq, msgs)
  | e :: r =>
      rbind (of_option (el_addr e)) (fun a =>
      if negb (bytes_eqb account (show a)) then take_events account bmc r seq msgs
      else rbind (toMessageEvent e) (fun o =>
           match o with
           | Some m =>
               if bytes_eqb (me_next m) bmc then
                 if seq <? me_seq m then Err 7 else if me_seq m <? seq then Err 3 else take_events account bmc r (seq + 1) (msgs ++ [me_msg m])
               else take_events account bmc r seq msgs
           | None => take_events account bmc r seq msgs
           end))
  end.
Fixpoint take_receipts (root : option bytes) (account bmc : bytes) (ps : list (option receiptproof)) (seq : Z) (msgs : list bytes) : result (Z * list bytes) :=
  match ps with
  | [] => Ok (seq, msgs)
  | p :: r => rbind (proveReceiptProof p root) (fun es => rbind (take_events account bmc es seq msgs) (fun x => take_receipts root account bmc r (fst x) (snd x)))
  end.
(** BTPMessageVerifier.java 131-138: the index is not increased *)
Definition fill (msgs : list bytes) : list (option bytes) :=
  match rev msgs with [] => [] | m :: r => Some m :: repeat None (length r) end.

(** BTPMessageVerifier.java 269-278 *)
Definition checkAccessible (p : iprops) (caller : bytes) (cur from : jaddr) : result unit :=
  if negb (bytes_eqb (ip_net p) (ja_net from)) then Err 0
  else if negb (bytes_eqb caller (ip_bmc p)) then Err 0
  else rbind (of_option (addr_of (ja_account cur))) (fun a => if negb (bytes_eqb a (ip_bmc p)) then Err 0 else Ok tt).

Definition is_nil {A} (l : list A) : bool := match l with [] => true | _ => false end.
(** BTPMessageVerifier.java 75-145 *)
Definition handleRelay (p : iprops) (caller bmc prev : bytes) (seq : Z) (msg : bytes) : result (iprops * list (option bytes)) :=
  rbind (of_option (j_valueOf bmc)) (fun cur =>
  rbind (of_option (j_valueOf prev)) (fun from =>
  rbind (checkAccessible p caller cur from) (fun _ =>
  rbind (of_option (fromBytes readIRelay msg)) (fun rm =>
  let us := match ir_updates rm with Some us => us | None => [] end in
  rbind (if negb (is_nil us) then
           rbind (verifyBlockUpdates (ip_mta p, ip_vals p, H (rlp_write (validators_item (ip_vals p)))) us) (fun s =>
           rbind (of_option (obind (last us None) iu_header)) (fun h => Ok (IProps (ip_bmc p) (ip_net p) (ip_last p) (snd (fst s)) (fst (fst s)), h)))
         else match ir_proof rm with
              | Some bp => rbind (verifyBlockProof bp (ip_mta p)) (fun h => Ok (p, h))
              | None => Err 0
              end) (fun x =>
  let p' := fst x in
  let h := snd x in
  let rps := match ir_receipts rm with Some l => l | None => [] end in
  rbind (if negb (is_nil rps) then
           match ih_result h with
           | None => Err 0
           | Some rs => rbind (take_receipts (rs_receipts rs) (ja_account from) bmc rps (seq + 1) []) (fun y => Ok (snd y))
           end
         else Ok []) (fun msgs =>
  let p2 := if is_nil msgs then p' else IProps (ip_bmc p') (ip_net p') (ih_height h) (ip_vals p') (ip_mta p') in
  Ok (if negb (is_nil us) || negb (is_nil (fill msgs)) then p2 else p, fill msgs))))))).
End BMV.
