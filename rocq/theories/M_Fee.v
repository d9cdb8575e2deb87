(** Model of javascore/fee-aggregation: FeeAggregationSCORE.java (syndications: tokens gathered as fees are sold for ICX, which goes to the
    Contribution Proposal System), with Syndication.java and Token.java.  Names of tokens and accounts are numbers.  A token is an address
    and an id (0 for none); of the token contracts only what this contract holds is kept ([f_have]), tokens come in by [FArrive]
    (tokenFallback, 267, and IRC31Receiver.java do nothing with them) and leave by claims.  What others decide is given with each call ([fext]):
    the time, the price and the decimals, whether the fund takes ICX, whether a token contract or a receiver accepts.  Nobody called calls
    back.  Getters, log lines and the address of the price source are left out. *)
From Coq Require Import ZArith List Bool.
From Verif Require Import Base M_JMap M_JBmc.
Import ListNotations.
Open Scope Z_scope.

(** Token.java 18-33; decimals may be null *)
Record ftok := FTok { k_addr : Z; k_id : Z; k_dec : option Z }.
(** Syndication.java 12-29 *)
Record syn := Syn { y_id : Z; y_amount : Z; y_total : Z; y_start : Z; y_end : Z }.
Inductive fout :=
| FStart (id name amount first v deadline : Z)     (* SyndicationStart *)
| FInfo (id name who v : Z)                        (* DepositInfo *)
| FEnded (id name amount time : Z)                 (* SyndicationEnded *)
(* not events: *)
| FDep (id who v : Z)                              (* ICX deposited *)
| FGiven (who v : Z)                               (* plain ICX received *)
| FFund (v : Z)                                    (* ICX sent on to the fund *)
| FShare (id who name share remain : Z)            (* what a depositor is given *)
| FPaid (who v : Z)                                (* ICX withdrawn *)
| FClaimed (who name v : Z)                        (* tokens claimed *)
| FCame (addr id v : Z).                           (* tokens that came in *)
Record fa := Fa {
  f_toks : list (Z * ftok); f_names : list Z;      (* tokensScore, supportedTokens *)
  f_syn : list (Z * syn);                          (* syndications *)
  f_lock : list (Z * Z);                           (* lockedBalances *)
  f_bal : list ((Z * Z) * Z);                      (* tokenBalances: (name, owner) *)
  f_ref : list (Z * Z);                            (* refundableBalances *)
  f_count : Z; f_dur : Z;                          (* syndicationCount, durationTime *)
  f_amt : list ((Z * Z) * Z);                      (* syndicationDepositorAmount: (id, depositor) *)
  f_list : list (Z * list Z);                      (* syndicationDepositorList *)
  f_icx : Z;                                       (* ICX of the contract *)
  f_have : list ((Z * Z) * Z);                     (* tokens of the contract: (address, id) *)
  f_out : list fout }.
Record fext := Fext { x_now : Z; x_price : option Z; x_dec : option Z; x_fund : bool; x_tok : bool; x_pay : bool }.

Definition setToks s v w := Fa v w (f_syn s) (f_lock s) (f_bal s) (f_ref s) (f_count s) (f_dur s) (f_amt s) (f_list s) (f_icx s) (f_have s) (f_out s).
Definition setSyn s v := Fa (f_toks s) (f_names s) v (f_lock s) (f_bal s) (f_ref s) (f_count s) (f_dur s) (f_amt s) (f_list s) (f_icx s) (f_have s) (f_out s).
Definition setLock s v := Fa (f_toks s) (f_names s) (f_syn s) v (f_bal s) (f_ref s) (f_count s) (f_dur s) (f_amt s) (f_list s) (f_icx s) (f_have s) (f_out s).
Definition setBalF s v := Fa (f_toks s) (f_names s) (f_syn s) (f_lock s) v (f_ref s) (f_count s) (f_dur s) (f_amt s) (f_list s) (f_icx s) (f_have s) (f_out s).
Definition setRef s v := Fa (f_toks s) (f_names s) (f_syn s) (f_lock s) (f_bal s) v (f_count s) (f_dur s) (f_amt s) (f_list s) (f_icx s) (f_have s) (f_out s).
Definition setCount s v := Fa (f_toks s) (f_names s) (f_syn s) (f_lock s) (f_bal s) (f_ref s) v (f_dur s) (f_amt s) (f_list s) (f_icx s) (f_have s) (f_out s).
Definition setDur s v := Fa (f_toks s) (f_names s) (f_syn s) (f_lock s) (f_bal s) (f_ref s) (f_count s) v (f_amt s) (f_list s) (f_icx s) (f_have s) (f_out s).
Definition setAmt s v w := Fa (f_toks s) (f_names s) (f_syn s) (f_lock s) (f_bal s) (f_ref s) (f_count s) (f_dur s) v w (f_icx s) (f_have s) (f_out s).
Definition setIcx s v := Fa (f_toks s) (f_names s) (f_syn s) (f_lock s) (f_bal s) (f_ref s) (f_count s) (f_dur s) (f_amt s) (f_list s) v (f_have s) (f_out s).
Definition setHave s v := Fa (f_toks s) (f_names s) (f_syn s) (f_lock s) (f_bal s) (f_ref s) (f_count s) (f_dur s) (f_amt s) (f_list s) (f_icx s) v (f_out s).
Definition emitF s o := Fa (f_toks s) (f_names s) (f_syn s) (f_lock s) (f_bal s) (f_ref s) (f_count s) (f_dur s) (f_amt s) (f_list s) (f_icx s) (f_have s) (f_out s ++ [o]).
Definition fbind {A B} (o : option A) (k : A -> option B) : option B := match o with Some x => k x | None => None end.
Definition fneed {A} (b : bool) (k : option A) : option A := if b then k else None.

(** 83-101 *)
Definition f_locked (s : fa) (n : Z) : Z := match aget Z.eqb n (f_lock s) with Some v => v | None => 0 end.
Definition f_refund (s : fa) (a : Z) : Z := match aget Z.eqb a (f_ref s) with Some v => v | None => 0 end.
Definition f_balance (s : fa) (a n : Z) : Z := match aget zz_eqb (n, a) (f_bal s) with Some v => v | None => 0 end.
Definition f_amount (s : fa) (id a : Z) : Z := match aget zz_eqb (id, a) (f_amt s) with Some v => v | None => 0 end.
Definition f_depositors (s : fa) (id : Z) : list Z := match aget Z.eqb id (f_list s) with Some l => l | None => [] end.
(** 103-109 *)
Definition f_held (s : fa) (t : ftok) : Z := match aget zz_eqb (k_addr t, k_id t) (f_have s) with Some v => v | None => 0 end.

(** long arithmetic *)
Definition wrap64 (z : Z) : Z := (z + 2 ^ 63) mod 2 ^ 64 - 2 ^ 63.
(** Syndication.java 81-89 *)
Definition y_deposit (s : fa) (y : syn) (who v : Z) : fa * syn :=
  let before := f_amount s (y_id y) who in
  let l := if before =? 0 then f_depositors s (y_id y) ++ [who] else f_depositors s (y_id y) in
  (emitF (setAmt s (aput zz_eqb (y_id y, who) (before + v) (f_amt s)) (aput Z.eqb (y_id y) l (f_list s))) (FDep (y_id y) who v),
   Syn (y_id y) (y_amount y) (y_total y + v) (y_start y) (y_end y)).
(** Syndication.java 31-39 *)
Definition y_new (s : fa) (amount who v now : Z) : fa * syn :=
  let id := f_count s + 1 in
  y_deposit (setCount s id) (Syn id amount 0 now (wrap64 (now + f_dur s))) who v.

(** Token.java 35-49 *)
Definition unit_of (t : ftok) (x : fext) : option Z :=
  option_map (fun d => 10 ^ Z.max 0 ((d + 2 ^ 31) mod 2 ^ 32 - 2 ^ 31)) (match k_dec t with Some d => Some d | None => x_dec x end).
(** BigInteger.divide *)
Definition jdiv (a b : Z) : option Z := if b =? 0 then None else Some (Z.quot a b).
(** 469-480: the tokens and the ICX a depositor gets *)
Definition share_of (unit price inIcx total amount d : Z) : option (Z * Z) :=
  if total <? inIcx then fbind (jdiv (d * unit) price) (fun t => Some (t, 0))
  else fbind (jdiv (d * amount) total) (fun t => fbind (jdiv (t * price) unit) (fun p => Some (t, d - p))).
(** 469-485 *)
Fixpoint dist_loop (unit price inIcx total amount id n : Z) (l : list Z) (s : fa) (acc : Z) : option (fa * Z) :=
  match l with
  | [] => Some (s, acc)
  | a :: l' =>
      fbind (share_of unit price inIcx total amount (f_amount s id a)) (fun r =>
      let s1 := setBalF s (aput zz_eqb (n, a) (f_balance s a n + fst r) (f_bal s)) in
      let s2 := if 0 <? snd r then setRef s1 (aput Z.eqb a (f_refund s1 a + snd r) (f_ref s1)) else s1 in
      dist_loop unit price inIcx total amount id n l' (emitF s2 (FShare id a n (fst r) (if 0 <? snd r then snd r else 0))) (acc + fst r))
  end.
(** 31, 75, 458-487 *)
Definition DISCOUNT : Z := 10.
Definition distribute (s : fa) (x : fext) (n : Z) (t : ftok) (y : syn) : option fa :=
  fbind (unit_of t x) (fun unit =>
  fbind (x_price x) (fun p =>
  fbind (jdiv (p * (100 - DISCOUNT)) 100) (fun price =>
  fbind (jdiv (y_amount y * price) unit) (fun inIcx =>
  fbind (dist_loop unit price inIcx (y_total y) (y_amount y) (y_id y) n (f_depositors s (y_id y)) s 0) (fun r =>
  Some (setLock (fst r) (aput Z.eqb n (f_locked (fst r) n + snd r) (f_lock (fst r))))))))).
(** a call with ICX to the fund: 446-449, 258-264 *)
Definition to_fund (s : fa) (x : fext) (v : Z) : option fa :=
  fneed ((v <=? f_icx s) && x_fund x) (Some (emitF (setIcx s (f_icx s - v)) (FFund v))).
(** 440-456 *)
Definition endAuction (s : fa) (x : fext) (n : Z) (t : ftok) (y : syn) : option fa :=
  if f_held s t <? y_amount y then None
  else fbind (if y_total y =? 0 then Some s else to_fund s x (y_total y)) (fun s1 =>
       fbind (distribute s1 x n t y) (fun s2 => Some (emitF s2 (FEnded (y_id y) n (y_amount y) (x_now x))))).

(** 278-338; the ICX sent is there already *)
Definition f_deposit (s0 : fa) (x : fext) (caller n v : Z) : option fa :=
  let s := setIcx s0 (f_icx s0 + v) in
  match aget Z.eqb n (f_toks s) with
  | None => None
  | Some t =>
      if f_held s t =? 0 then None
      else match aget Z.eqb n (f_syn s) with
           | None =>
               let avail := f_held s t - f_locked s n in
               if avail <=? 0 then None
               else let '(s1, y) := y_new s avail caller v (x_now x) in
                    Some (emitF (setSyn s1 (aput Z.eqb n y (f_syn s1))) (FStart (y_id y) n avail caller v (y_end y)))
           | Some y0 =>
               if y_end y0 <=? x_now x then
                 let avail := f_held s t - f_locked s n - y_amount y0 in
                 if avail <=? 0 then None
                 else let '(s1, y) := y_new s avail caller v (x_now x) in
                      let s2 := setSyn s1 (aput Z.eqb n y (f_syn s1)) in
                      fbind (endAuction s2 x n t y0) (fun s3 => Some (emitF s3 (FStart (y_id y) n avail caller v (y_end y))))
               else let '(s1, y) := y_deposit s y0 caller v in
                    Some (emitF (setSyn s1 (aput Z.eqb n y (f_syn s1))) (FInfo (y_id y) n caller v))
           end
  end.
(** 345-362: if the ICX cannot be sent, the claim stays *)
Definition f_withdrawal (s : fa) (x : fext) (caller : Z) : option fa :=
  let amount := f_refund s caller in
  if amount <=? 0 then None
  else let s1 := setRef s (aput Z.eqb caller 0 (f_ref s)) in
       if (amount <=? f_icx s1) && x_pay x then Some (emitF (setIcx s1 (f_icx s1 - amount)) (FPaid caller amount))
       else Some (setRef s1 (aput Z.eqb caller (f_refund s1 caller + amount) (f_ref s1))).
(** 369-409 *)
Definition f_claim (s : fa) (x : fext) (caller n : Z) : option fa :=
  match aget Z.eqb n (f_toks s) with
  | None => None
  | Some t =>
      let amount := f_balance s caller n in
      if amount <=? 0 then None
      else let s1 := setLock s (aput Z.eqb n (f_locked s n - amount) (f_lock s)) in
           let s2 := setBalF s1 (aput zz_eqb (n, caller) 0 (f_bal s1)) in
           let s3 := if (amount <=? f_held s2 t) && x_tok x
                     then emitF (setHave s2 (aput zz_eqb (k_addr t, k_id t) (f_held s2 t - amount) (f_have s2))) (FClaimed caller n amount)
                     else setBalF (setLock s2 (aput Z.eqb n (f_locked s2 n + amount) (f_lock s2))) (aput zz_eqb (n, caller) amount (f_bal s2)) in
           match aget Z.eqb n (f_syn s3) with
           | Some y => if y_end y <=? x_now x then endAuction (setSyn s3 (adel Z.eqb n (f_syn s3))) x n t y else Some s3
           | None => Some s3
           end
  end.

Inductive fop :=
| FRegister2 (c n addr : Z)
| FRegister31 (c n addr id : Z) (dec : option Z)
| FDuration (c d : Z)
| FDeposit (c n v : Z)
| FWithdraw (c : Z)
| FClaim (c n : Z)
| FGift (c v : Z)                       (* plain ICX *)
| FArrive (addr id v : Z).              (* tokens sent to the contract *)

Section FEE.
(** Context.getOwner(); which addresses are contracts *)
Variable owner : Z.
Variable isContract : Z -> bool.
(** 124-169 *)
Definition f_register (s : fa) (c n : Z) (t : ftok) : option fa :=
  fneed ((c =? owner) && negb (ahas Z.eqb n (f_toks s)) && isContract (k_addr t)) (Some (setToks s (aput Z.eqb n t (f_toks s)) (f_names s ++ [n]))).
Definition fexec (s : fa) (x : fext) (o : fop) : option fa :=
  match o with
  | FRegister2 c n a => f_register s c n (FTok a 0 None)
  | FRegister31 c n a i d => fneed (0 <? i) (f_register s c n (FTok a i d))
  (* 173-182; longValueExact *)
  | FDuration c d => fneed ((c =? owner) && negb (d =? 0) && (- 2 ^ 63 <=? d) && (d <? 2 ^ 63)) (Some (setDur s d))
  | FDeposit c n v => fneed (0 <=? v) (f_deposit s x c n v)
  | FWithdraw c => f_withdrawal s x c
  | FClaim c n => f_claim s x c n
  | FGift c v => fneed (0 <? v) (to_fund (emitF (setIcx s (f_icx s + v)) (FGiven c v)) x v)
  | FArrive a i v => fneed (0 <=? v) (Some (emitF (setHave s (aput zz_eqb (a, i) (f_held s (FTok a i None) + v) (f_have s))) (FCame a i v)))
  end.
(** 68-80 *)
Definition finit (icx : Z) (have : list ((Z * Z) * Z)) : fa := Fa [] [] [] [] [] [] 0 43200000000 [] [] icx have [].
(** calls that fail leave no trace *)
Definition fstep (s : fa) (xo : fext * fop) : fa := match fexec s (fst xo) (snd xo) with Some s' => s' | None => s end.
Definition frun (icx : Z) (have : list ((Z * Z) * Z)) (l : list (fext * fop)) : fa := fold_left fstep l (finit icx have).
End FEE.
