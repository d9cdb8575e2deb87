(** What it means for an RLP item to lie in the memory of a contract. *)
From Coq Require Import ZArith List.
From Verif Require Import Base M_Rlp S_Rlp M_SolRlp.
Import ListNotations.
Open Scope Z_scope.

Definition mem_ok (m : mem) : Prop := forall i, is_byte (m i).
(** the bytes [b] lie at [p] *)
Definition placed (m : mem) (p : Z) (b : list Z) : Prop := forall i x, nth_error b i = Some x -> m (p + Z.of_nat i) = x.
(** The item describes exactly the bytes of the tree [t], whatever lies behind them. *)
Definition holds (it : sitem) (t : rlp) : Prop :=
  rlp_ok t /\ zlen (rlp_write t) < 2 ^ 63 /\ i_len it = zlen (rlp_write t) /\ placed (i_mem it) 0 (rlp_write t) /\ mem_ok (i_mem it).
(** a tree containing, as a string of its own, the single byte 0x80 *)
Fixpoint has_0x80 (t : rlp) : Prop :=
  match t with
  | RNull => False
  | RBytes b => b = [128]
  | RList l => fold_right (fun t p => has_0x80 t \/ p) False l
  end.
(** a tree put together with the library's encoders *)
Fixpoint sol_write (t : rlp) : list Z :=
  match t with
  | RNull => encodeNull
  | RBytes b => encodeBytes b
  | RList l => encodeList (map sol_write l)
  end.
