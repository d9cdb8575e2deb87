(** What a bridge verifier should do with receipts, independently of its loops. *)
From Coq Require Import ZArith List Bool.
From Verif Require Import Base M_Bridge.
Import ListNotations.
Open Scope Z_scope.

(** The events of receipts that are not below a height already reached, [h] to begin with. *)
Fixpoint seen (h : Z) (rps : list breceipt) : list bevent :=
  match rps with
  | [] => []
  | r :: t => (if br_height r <? h then [] else br_events r) ++ seen (Z.max h (br_height r)) t
  end.
Definition top_height (h : Z) (rps : list breceipt) : Z := fold_right (fun r m => Z.max (br_height r) m) h rps.

(** [takes mine n es ms]: with [n] the next number, going through [es] hands over [ms].  Old events and those for others
    are passed over; there is no way past an event that is further ahead than the next number. *)
Inductive takes (mine : bevent -> Prop) : Z -> list bevent -> list (list Z) -> Prop :=
| takes_nil : forall n, takes mine n [] []
| takes_old : forall n e es ms, be_seq e < n -> takes mine n es ms -> takes mine n (e :: es) ms
| takes_other : forall n e es ms, be_seq e = n -> ~ mine e -> takes mine n es ms -> takes mine n (e :: es) ms
| takes_next : forall n e es ms, be_seq e = n -> mine e -> takes mine (n + 1) es ms -> takes mine n (e :: es) (be_msg e :: ms).
Definition anyone (e : bevent) : Prop := True.

(** consecutive numbers *)
Fixpoint numbers (n : Z) (k : nat) : list Z := match k with O => [] | S k' => n :: numbers (n + 1) k' end.
(** [a] is [b] with elements left out *)
Inductive within {A} : list A -> list A -> Prop :=
| within_nil : within [] []
| within_skip : forall x a b, within a b -> within a (x :: b)
| within_keep : forall x a b, within a b -> within (x :: a) (x :: b).
