(** What the fee aggregation should keep to, said over its books and what it did. *)
From Coq Require Import ZArith List Bool.
From Verif Require Import Base M_JMap M_JBmc M_Fee S_Ncs.
Import ListNotations.
Open Scope Z_scope.

Section HISTORY.
Variable log : list fout.
(** ICX deposited in a syndication, by one and by all; in all of them; given; sent on; withdrawn *)
Definition dep (id u : Z) : Z := sumOf (fun e => match e with FDep k o v => if (k =? id) && (o =? u) then v else 0 | _ => 0 end) log.
Definition depAll (id : Z) : Z := sumOf (fun e => match e with FDep k _ v => if k =? id then v else 0 | _ => 0 end) log.
Definition allDeps : Z := sumOf (fun e => match e with FDep _ _ v => v | _ => 0 end) log.
Definition gifts : Z := sumOf (fun e => match e with FGiven _ v => v | _ => 0 end) log.
Definition funded : Z := sumOf (fun e => match e with FFund v => v | _ => 0 end) log.
Definition withdrawn (u : Z) : Z := sumOf (fun e => match e with FPaid o v => if o =? u then v else 0 | _ => 0 end) log.
Definition allWithdrawn : Z := sumOf (fun e => match e with FPaid _ v => v | _ => 0 end) log.
(** tokens and ICX given as shares; tokens claimed *)
Definition given (u n : Z) : Z := sumOf (fun e => match e with FShare _ o k t _ => if (o =? u) && (k =? n) then t else 0 | _ => 0 end) log.
Definition refunds (u : Z) : Z := sumOf (fun e => match e with FShare _ o _ _ r => if o =? u then r else 0 | _ => 0 end) log.
Definition claims (u n : Z) : Z := sumOf (fun e => match e with FClaimed o k v => if (o =? u) && (k =? n) then v else 0 | _ => 0 end) log.
(** syndications by number *)
Definition begun : list Z := flat_map (fun e => match e with FStart id _ _ _ _ _ => [id] | _ => [] end) log.
Definition over : list Z := flat_map (fun e => match e with FEnded id _ _ _ => [id] | _ => [] end) log.
(** tokens that came in *)
Definition came (a i : Z) : Z := sumOf (fun e => match e with FCame b j v => if (b =? a) && (j =? i) then v else 0 | _ => 0 end) log.
End HISTORY.
(** ICX of the open syndications; tokens up for one *)
Definition openIcx (s : fa) : Z := sumOf (fun x => y_total (snd x)) (f_syn s).
Definition openTokens (s : fa) (n : Z) : Z := match aget Z.eqb n (f_syn s) with Some y => y_amount y | None => 0 end.
(** Different names are different tokens. *)
Definition distinct (l : list (Z * ftok)) : Prop :=
  forall n m t t', aget Z.eqb n l = Some t -> aget Z.eqb m l = Some t' -> k_addr t = k_addr t' -> k_id t = k_id t' -> n = m.
(** Everybody deposits something, and prices are not negative. *)
Definition fair (l : list (fext * fop)) : Prop :=
  Forall (fun xo => (match snd xo with FDeposit _ _ v => 0 < v | _ => True end) /\ forall p, x_price (fst xo) = Some p -> 0 <= p) l.
(** How a syndication should be settled: [d] of the [total] ICX deposited for [amount] tokens, at [price] ICX for [unit] tokens.  If the tokens are
    worth more than was deposited, a depositor buys tokens at the price; otherwise they get their part of the tokens and the ICX that is left. *)
Definition fair_share (unit price total amount d share remain : Z) : Prop :=
  if total <? amount * price / unit then share = d * unit / price /\ remain = 0
  else share = d * amount / total /\ remain = d - share * price / unit.
(** What a depositor was given for a syndication. *)
Definition settled (log : list fout) (id u : Z) : list (Z * Z) :=
  flat_map (fun e => match e with FShare k o _ t r => if (k =? id) && (o =? u) then [(t, r)] else [] | _ => [] end) log.
(** Tokens given for a syndication. *)
Definition soldIn (log : list fout) (id : Z) : Z := sumOf (fun e => match e with FShare k _ _ t _ => if k =? id then t else 0 | _ => 0 end) log.
