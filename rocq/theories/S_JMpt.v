(** Specification vocabulary for the Patricia tree of the ICON block verifier: trees with their keys, and their bytes. *)
From Coq Require Import ZArith List Bool.
From Verif Require Import Base M_Rlp.
Import ListNotations.
Open Scope Z_scope.

(** A tree over keys of nibbles.  A branch has 16 children and a value, empty when it has none. *)
Inductive trie : Type :=
| TLeaf (nib v : list Z)
| TExt (nib : list Z) (t : trie)
| TBranch (cs : list (option trie)) (v : list Z).

(** [at_key t k p v]: the tree has value [v] under key [k], and [p] are the nodes on the way, [t] first. *)
Inductive at_key : trie -> list Z -> list trie -> list Z -> Prop :=
| at_leaf : forall nib v, at_key (TLeaf nib v) nib [TLeaf nib v] v
| at_ext : forall nib t k p v, at_key t k p v -> at_key (TExt nib t) (nib ++ k) (TExt nib t :: p) v
| at_end : forall cs v, v <> [] -> at_key (TBranch cs v) [] [TBranch cs v] v
| at_child : forall cs v x c k p w, 0 <= x < 16 -> nth_error cs (Z.to_nat x) = Some (Some c) -> at_key c k p w ->
    at_key (TBranch cs v) (x :: k) (TBranch cs v :: p) w.

Definition nibble (x : Z) : Prop := 0 <= x < 16.
Inductive good : trie -> Prop :=
| g_leaf : forall nib v, Forall nibble nib -> bytes_ok v -> good (TLeaf nib v)
| g_ext : forall nib t, Forall nibble nib -> good t -> good (TExt nib t)
| g_branch : forall cs v, length cs = 16%nat -> bytes_ok v -> (forall i c, nth_error cs i = Some (Some c) -> good c) ->
    v <> [] \/ (exists i c, nth_error cs i = Some (Some c)) -> good (TBranch cs v).

(** Bytes.  Nibbles are packed in pairs behind a first byte with a flag for leaves (32) and one for an odd number (16). *)
Fixpoint pack (l : list Z) : list Z := match l with a :: b :: r => 16 * a + b :: pack r | _ => [] end.
Definition compact (leaf : bool) (nib : list Z) : list Z :=
  let f := if leaf then 32 else 0 in
  if Nat.even (length nib) then f :: pack nib else match nib with a :: r => f + 16 + a :: pack r | [] => [] end.
(** A parent refers to a node by the hash of its bytes, or contains it when [emb] says so. *)
Section ITEM.
Context (H : list Z -> list Z) (emb : trie -> bool).
Fixpoint item_of (t : trie) : rlp :=
  match t with
  | TLeaf nib v => RList [RBytes (compact true nib); RBytes v]
  | TExt nib c => RList [RBytes (compact false nib); if emb c then item_of c else RBytes (H (rlp_write (item_of c)))]
  | TBranch cs v =>
      RList (map (fun o => match o with None => RBytes [] | Some c => if emb c then item_of c else RBytes (H (rlp_write (item_of c))) end) cs ++ [RBytes v])
  end.
Definition bytes_of (t : trie) : list Z := rlp_write (item_of t).
Definition root_of (t : trie) : list Z := H (bytes_of t).
(** The sizes of nodes stay below 2^63 bytes. *)
Inductive sized : trie -> Prop :=
| z_leaf : forall nib v, zlen (bytes_of (TLeaf nib v)) < 2 ^ 63 -> sized (TLeaf nib v)
| z_ext : forall nib t, zlen (bytes_of (TExt nib t)) < 2 ^ 63 -> sized t -> sized (TExt nib t)
| z_branch : forall cs v, zlen (bytes_of (TBranch cs v)) < 2 ^ 63 -> (forall i c, nth_error cs i = Some (Some c) -> sized c) -> sized (TBranch cs v).
(** No extension contains the node it leads to. *)
Inductive ext_by_hash : trie -> Prop :=
| e_leaf : forall nib v, ext_by_hash (TLeaf nib v)
| e_ext : forall nib t, emb t = false -> ext_by_hash t -> ext_by_hash (TExt nib t)
| e_branch : forall cs v, (forall i c, nth_error cs i = Some (Some c) -> ext_by_hash c) -> ext_by_hash (TBranch cs v).
End ITEM.

Definition hash_bytes (H : list Z -> list Z) : Prop := forall x, bytes_ok (H x) /\ length (H x) = 32%nat.
Definition collision (H : list Z -> list Z) : Prop := exists x y, x <> y /\ H x = H y.
