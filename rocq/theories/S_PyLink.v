(** Whose turn it should be to relay, independently of how the Python contracts find it. *)
From Coq Require Import ZArith List Bool.
From Verif Require Import Base M_PyBmc M_PyLink.
Import ListNotations.
Open Scope Z_scope.
Local Notation bytes := (list Z).

(** c is a / b rounded up. *)
Definition rounded_up (a b c : Z) : Prop := (c - 1) * b < a <= c * b.
(** The turns that have passed at a height: every turn lasts [term] blocks, the present one until [r_height]. *)
Definition turns (l : rlink) (term h k : Z) : Prop :=
  k = 0 /\ h <= r_height l \/ 0 < k /\ r_height l + (k - 1) * term < h <= r_height l + k * term.
(** The relay whose turn it is after k more turns *)
Definition in_turn (l : rlink) (k : Z) (a : bytes) : Prop := nth_error (r_relays l) (Z.to_nat ((r_idx l + k) mod zlen (r_relays l))) = Some a.
(** A link with a relay to point at *)
Definition pointing (l : rlink) : Prop := 0 <= r_idx l < zlen (r_relays l).
(** Heights that do not go down, from h on *)
Fixpoint rising (h : Z) (hs : list Z) : Prop := match hs with [] => True | x :: r => h <= x /\ rising x r end.
(** What every link keeps: its index points at a relay as soon as there is one, the parameters are not zero and no relay is to be removed. *)
Definition in_order (l : rlink) : Prop := (r_relays l = [] /\ r_idx l = 0 \/ pointing l) /\ 0 < r_src l /\ 0 < r_agg l /\ 0 < r_delay l /\ r_nremove l = [].
(** A link is never lost, and relays are only added to it, behind those that are there. *)
Definition grown (l l' : rlink) : Prop := exists t, r_relays l' = r_relays l ++ t.
(** The link after calls without messages at these heights *)
Definition rotates (l : rlink) (hs : list Z) : res rlink := fold_left (fun r h => bind r (fun l => bind (rotate l h 0 false) (fun p => Val (snd p)))) hs (Val l).
