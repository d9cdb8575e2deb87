(** Specification vocabulary for signatures, keystores and encrypted values. *)
From Coq Require Import ZArith List Bool.
From Verif Require Import Base.
Import ListNotations.
Open Scope Z_scope.

(** Two different inputs with the same hash. *)
Definition collision (h : list Z -> list Z) (a b : list Z) : Prop := a <> b /\ h a = h b.
(** A function all of whose outputs are byte strings of at least [n] bytes. *)
Definition gives_bytes (h : list Z -> list Z) (n : nat) : Prop := forall x, bytes_ok (h x) /\ (n <= length (h x))%nat.
(** Bytewise exclusive or of equally long strings. *)
Definition xor_bytes (a b : list Z) : list Z := map (fun p => Z.lxor (fst p) (snd p)) (combine a b).
