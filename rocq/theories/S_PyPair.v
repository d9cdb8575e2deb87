(** Sums over two token services and what is on the way between them. *)
From Coq Require Import ZArith List Bool.
From Verif Require Import Base GoStr M_JMap M_PyBmv M_PyBmc M_PyToken S_PyToken M_PyPair.
Import ListNotations.
Open Scope Z_scope.
Local Notation bytes := (list Z).

(** What all users together can use of [n], and have locked *)
Fixpoint free_of (l : list ((bytes * bytes) * (Z * Z))) (n : bytes) : Z := match l with [] => 0 | (k, b) :: r => (if bytes_eqb (snd k) n then fst b else 0) + free_of r n end.
Definition free (s : tstate) (n : bytes) : Z := free_of (t_bal s) n.
Fixpoint held_of (l : list ((bytes * bytes) * (Z * Z))) (n : bytes) : Z := match l with [] => 0 | (k, b) :: r => (if bytes_eqb (snd k) n then snd b else 0) + held_of r n end.
Definition held (s : tstate) (n : bytes) : Z := held_of (t_bal s) n.
(** The open transfer [k] of [s], as far as it is of [n] *)
Definition open_value (s : tstate) (k : Z) (n : bytes) : Z := match aget Z.eqb k (t_pending s) with Some p => if bytes_eqb (q_name p) n then q_value p else 0 | None => 0 end.
(** What was credited by the partner of [s] but is still locked there: the answers "delivered" on the way to [s] *)
Fixpoint twice (s : tstate) (l : list (Z * jmsg)) (n : bytes) : Z :=
  match l with [] => 0 | (k, JRes 0) :: r => open_value s k n + twice s r n | _ :: r => twice s r n end.
(** Numbers of the requests and of the answers on the way *)
Fixpoint asked (l : list (Z * jmsg)) : list Z := match l with [] => [] | (k, JReq _ _ _) :: r => k :: asked r | _ :: r => asked r end.
Fixpoint answered (l : list (Z * jmsg)) : list Z := match l with [] => [] | (k, JRes _) :: r => k :: answered r | _ :: r => answered r end.
