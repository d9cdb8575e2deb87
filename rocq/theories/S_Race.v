(** Specification for shared lists of records: subsequences, order, runs without a clash. *)
From Coq Require Import ZArith List Bool.
From Verif Require Import Base M_Link M_Race.
Import ListNotations.
Open Scope Z_scope.

(** [part l m]: [l] is [m] with some elements left out. *)
Inductive part {A} : list A -> list A -> Prop :=
| part_nil : part [] []
| part_skip : forall x l m, part l m -> part l (x :: m)
| part_keep : forall x l m, part l m -> part (x :: l) (x :: m).
(** Heights and numbers do not decrease. *)
Inductive rising {A} (hgt sq : A -> Z) : list A -> Prop :=
| ri_nil : rising hgt sq []
| ri_cons : forall r l, (forall x, In x l -> hgt r <= hgt x /\ sq r <= sq x) -> rising hgt sq l -> rising hgt sq (r :: l).
(** What a status acknowledges. *)
Definition covered {A} (hgt sq : A -> Z) (b : bls) (r : A) : Prop := hgt r <= Height b /\ sq r <= RxSeq b.
(** No list is written by [append] between the second read and the write of a [cut]. *)
Fixpoint no_clash {A} (hgt sq : A -> Z) (w : race A) (l : list (act A)) : Prop :=
  match l with
  | [] => True
  | a :: r => match a, c_app w, c_cut w with Append, AWrite _ _, CWrite _ _ _ => False | _, _, _ => True end /\ no_clash hgt sq (cstep hgt sq w a) r
  end.
