(** Specification for the receivers. *)
From Coq Require Import ZArith List Bool.
From Verif Require Import Base M_Receive.
Import ListNotations.
Open Scope Z_scope.

(** The logs of a block that matter: new sequence and right destination, with their transaction index, in log order. *)
Definition relevant (dst : list Z) (seq : Z) (g : elog) : list (Z * evt) :=
  match lg_event g with
  | Some (sq, next, msg) => if (seq <? i64 sq) && bytes_eqb next dst then [(lg_tx g, mkEvt sq msg)] else []
  | None => []
  end.
Definition kept (dst : list Z) (seq : Z) (logs : list elog) : list (Z * evt) := flat_map (relevant dst seq) logs.
Definition group (tx : Z) (l : list (Z * evt)) : list evt := map snd (filter (fun x => fst x =? tx) l).

(** n consecutive heights from h on *)
Fixpoint heights (h : Z) (n : nat) : list Z := match n with O => [] | S m => h :: heights (h + 1) m end.

(** Records whose message ranges follow one another without gap, from [q] on. *)
Fixpoint contiguous (q : Z) (l : list brs) : Prop :=
  match l with [] => True | r :: l' => b_seq r - zlen (M_Mbt.m_contents (b_tree r)) = q /\ contiguous (b_seq r) l' end.
