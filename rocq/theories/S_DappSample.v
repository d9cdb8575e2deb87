(** What is asked of the sample of the call service, read off what happened (newest first). *)
From Coq Require Import ZArith List.
From Verif Require Import M_DappSample.
Import ListNotations.
Open Scope Z_scope.
Local Notation bytes := (list Z).

(** The rollback data that waits under an id: stored and not back since *)
Fixpoint waiting (id : Z) (l : list xentry) : option (bytes * Z) :=
  match l with
  | [] => None
  | XStored i r sn :: t => if Z.eq_dec i id then Some (r, sn) else waiting id t
  | XBack i _ _ _ :: t => if Z.eq_dec i id then None else waiting id t
  | _ :: t => waiting id t
  end.
Fixpoint stored_ids (l : list xentry) : list Z := match l with [] => [] | XStored i _ _ :: t => i :: stored_ids t | _ :: t => stored_ids t end.
Definition back (id : Z) (l : list xentry) : Prop := exists from sn r, In (XBack id from sn r) l.
