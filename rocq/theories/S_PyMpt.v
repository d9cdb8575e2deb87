(** What the Patricia tree of the Python contracts gives, in the vocabulary of S_JMpt.v. *)
From Coq Require Import ZArith List Bool.
From Verif Require Import Base M_Rlp S_JMpt.
Import ListNotations.
Open Scope Z_scope.

(** The bytes given for a value at the end of the way [p]: those of a branch come with their RLP header. *)
Definition shown (p : list trie) (v : list Z) : list Z := match last p (TLeaf [] []) with TBranch _ _ => rlp_write (RBytes v) | _ => v end.
(** The proof for the way [p]: its first node, and the others that their parents do not contain. *)
Definition proof_of (H : list Z -> list Z) (emb : trie -> bool) (p : list trie) : list (list Z) :=
  match p with [] => [] | t :: r => bytes_of H emb t :: map (bytes_of H emb) (filter (fun n => negb (emb n)) r) end.
(** Every branch leads somewhere. *)
Inductive forks : trie -> Prop :=
| f_leaf : forall nib v, forks (TLeaf nib v)
| f_ext : forall nib t, forks t -> forks (TExt nib t)
| f_branch : forall cs v, (exists i c, nth_error cs i = Some (Some c)) -> (forall i c, nth_error cs i = Some (Some c) -> forks c) -> forks (TBranch cs v).
