(** What is asked of the text helpers. *)
From Coq Require Import ZArith List.
Import ListNotations.
Open Scope Z_scope.
Local Notation bytes := (list Z).

Definition byte (x : Z) : Prop := 0 <= x < 256.
Definition lower_case (c : Z) : Prop := 97 <= c <= 102.
Definition upper_case (c : Z) : Prop := 65 <= c <= 70.
Definition decimal (c : Z) : Prop := 48 <= c <= 57.
(** The text between the delimiters *)
Inductive cut (c : Z) : bytes -> list bytes -> Prop :=
| cut_last : forall p, ~ In c p -> cut c p [p]
| cut_more : forall p l ps, ~ In c p -> cut c l ps -> cut c (p ++ c :: l) (p :: ps).
(** The last character stands alone behind a delimiter *)
Definition short_end (c : Z) (l : bytes) : Prop := (exists x, l = [x]) \/ exists front x, l = front ++ [c; x].
