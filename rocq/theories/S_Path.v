(** What paths mean, apart from how they are cleaned: a place in the tree of directories is the list of names on the way
    from the root to it; a path is walked name by name.  (Symbolic links are left aside, as path/filepath does.) *)
From Coq Require Import String Ascii ZArith List Bool.
From Verif Require Import Base.
Import ListNotations.
Open Scope Z_scope.

Definition name_ok (c : list Z) : Prop := ~ In 47 c.
(** the texts between the slashes *)
Inductive parts : list Z -> list (list Z) -> Prop :=
| P_one : forall c, name_ok c -> parts c [c]
| P_more : forall c p l, name_ok c -> parts p l -> parts (c ++ 47 :: p) (c :: l).
(** from a place along the names: nothing and "." stay, ".." leads one up, and from the root to the root *)
Inductive walk : list (list Z) -> list (list Z) -> list (list Z) -> Prop :=
| W_end : forall at_, walk at_ [] at_
| W_stay : forall at_ c l to, c = [] \/ c = [46] -> walk at_ l to -> walk at_ (c :: l) to
| W_root : forall l to, walk [] l to -> walk [] ([46; 46] :: l) to
| W_up : forall at_ x l to, walk at_ l to -> walk (at_ ++ [x]) ([46; 46] :: l) to
| W_down : forall at_ c l to, c <> [] -> c <> [46] -> c <> [46; 46] -> walk (at_ ++ [c]) l to -> walk at_ (c :: l) to.
Definition absolute (p : list Z) : Prop := exists r, p = 47 :: r.
(** where a path leads from the working directory [from] *)
Definition leads (from : list (list Z)) (p : list Z) (to : list (list Z)) : Prop :=
  exists l, parts p l /\ ((absolute p /\ walk [] l to) \/ (~ absolute p /\ walk from l to)).
(** the directory a file name is in, from the working directory *)
Definition dir_of (from : list (list Z)) (file : list Z) (dir : list (list Z)) : Prop :=
  (name_ok file /\ dir = from) \/ exists d n, file = d ++ 47 :: n /\ name_ok n /\ leads from (d ++ [47]) dir.
