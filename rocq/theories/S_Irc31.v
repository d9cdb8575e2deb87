(** What the sample multi token should keep: balances that follow from its events, and lists of numbers that can be read back. *)
From Coq Require Import ZArith List Bool.
From Verif Require Import Base GoStr M_JMap M_Rlp S_Rlp M_Irc31.
Import ListNotations.
Open Scope Z_scope.
Local Notation bytes := (list Z).

(** What a list of pairs moves of [id] *)
Fixpoint want (l : list (Z * Z)) (id : Z) : Z := match l with [] => 0 | (i, v) :: r => (if i =? id then v else 0) + want r id end.
(** What the events say that [u] got and gave of [id] *)
Definition got1 (e : mevent) (u : bytes) (id : Z) : Z :=
  match e with ESingle _ _ t i v => if bytes_eqb u t && (i =? id) then v else 0 | EBatch _ _ t _ _ l => if bytes_eqb u t then want l id else 0 | EApproval _ _ _ => 0 end.
Definition gave1 (e : mevent) (u : bytes) (id : Z) : Z :=
  match e with ESingle _ f _ i v => if bytes_eqb u f && (i =? id) then v else 0 | EBatch _ f _ _ _ l => if bytes_eqb u f then want l id else 0 | EApproval _ _ _ => 0 end.
Fixpoint replay (l : list mevent) (u : bytes) (id : Z) : Z := match l with [] => 0 | e :: r => got1 e u id - gave1 e u id + replay r u id end.
(** The last approval event of the pair *)
Fixpoint last_approval (l : list mevent) (owner op : bytes) (d : bool) : bool :=
  match l with [] => d | EApproval o p y :: r => last_approval r owner op (if bytes_eqb owner o && bytes_eqb op p then y else d) | _ :: r => last_approval r owner op d end.
(** All there is of [id] *)
Fixpoint total (l : list ((Z * bytes) * Z)) (id : Z) : Z := match l with [] => 0 | ((i, _), v) :: r => (if i =? id then v else 0) + total r id end.
(** What calls that went through made and destroyed of [id] *)
Definition goes_through (s : mtoken) (c : mcall) : bool := match mdo s c with Some _ => true | None => false end.
Fixpoint made (s : mtoken) (l : list mcall) (id : Z) : Z :=
  match l with
  | [] => 0
  | c :: r => (if goes_through s c then match c with MMint _ i v _ => if i =? id then v else 0 | MBurn _ i v => if i =? id then - v else 0 | _ => 0 end else 0) + made (mstep s c) r id
  end.
Definition caller (c : mcall) : bytes := match c with MTransfer x _ _ _ _ => x | MBatch x _ _ _ _ => x | MApprove x _ _ => x | MMint x _ _ _ => x | MBurn x _ _ => x | MSetUri x _ _ => x end.
(** [c] is somewhere in the tree *)
Inductive occurs (c : mcall) : mtree -> Prop :=
| O_here : forall l ok, occurs c (MCalls c l ok)
| O_in : forall d l ok x, In x l -> occurs c x -> occurs c (MCalls d l ok).
(** A number as RLP: its shortest bytes, none for 0 *)
Definition number (n : Z) (b : bytes) : Prop := n = 0 /\ b = [] \/ 0 < n /\ be_min n b.
(** A list of numbers in RLP *)
Definition numbers (l : list Z) (b : bytes) : Prop := exists items, Forall2 number l items /\ rlp_spec (RList (map RBytes items)) b.
