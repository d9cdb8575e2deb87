(** Three networks in a row, 1 - 2 - 3, to show the theorems about many message centers are about something.  The relays
    here hand over everything there is; service 7 of network 3 answers. *)
From Coq Require Import String Ascii ZArith List Bool.
From Verif Require Import Base M_JMap M_JBmc S_JBmc M_Net.
Import ListNotations.
Open Scope Z_scope.

Definition xacc (n : Z) : Z := 100 * n.
Definition xowner (n : Z) : Z := 900 + n.
Definition xnets : list Z := [1; 2; 3].
Definition all_there (w : world) (n : Z) (i : nat) (v : Z) (prev : addr) (rx : Z) (b : list Z) : option (list (option msg)) :=
  if addr_eqb prev (me xacc (a_net prev)) then Some (map Some (skipn (Z.to_nat rx) (channel xacc w (a_net prev) n))) else None.
Definition xserve (i : nat) (a : Z) (c : bshcall) : action :=
  match c with
  | BMessage src svc sn _ => if 0 <? sn then Calls [SCall src svc (- sn) (PBytes [6]) 0 false] else Calls []
  | BError _ _ _ _ => Calls []
  end.
Definition xok (i : nat) (nid : Z) (m : msg) : bool := true.
Definition admin_only (o : op) : bool := match o with RemoveLink _ _ | DropMessage _ _ _ _ _ _ _ => false | _ => true end.
Definition xstep (w : world) (x : Z * op) : world :=
  let '(n, o) := x in
  if existsb (Z.eqb n) xnets && admin_only o then
    match exec n (xacc n) (xowner n) (all_there w n) xserve xok (w_st w n) o with
    | Val _ s' => World (put (w_st w) n s') (put (w_in w) n (w_in w n ++ taken xacc (all_there w n) w n o))
    | Exn _ _ => w
    end
  else w.
Definition xrun (l : list (Z * op)) : world := fold_left xstep l new_world.
Definition join (n p : Z) : list (Z * op) := [(n, AddVerifier (xowner n) p (10 * p)); (n, AddLink (xowner n) (me xacc p)); (n, AddRelay (xowner n) (me xacc p) 50)].
Definition xsetup : list (Z * op) :=
  join 1 2 ++ join 2 1 ++ join 2 3 ++ join 3 2 ++
  [(1, AddService 901 7 71); (3, AddService 903 7 73); (1, AddRoute 901 3 2); (3, AddRoute 903 1 2)].
Definition relay (n p : Z) : Z * op := (n, HandleRelay 50 (me xacc p) []).
(** the links introduce themselves; then service 7 of network 1 asks the one of network 3 *)
Definition xasked : world := xrun (xsetup ++ [relay 1 2; relay 2 1; relay 2 3; relay 3 2; relay 2 1; relay 1 2; relay 3 2; (1, SendMessage 71 3 7 5 (PBytes [8]) 0)]).
Definition xtwo : world := fold_left xstep [relay 2 1; relay 3 2] xasked.
Definition xback : world := fold_left xstep [relay 2 3; relay 1 2] xtwo.
(** the same with owners who may do anything *)
Definition ystep (w : world) (x : Z * op) : world :=
  let '(n, o) := x in
  match exec n (xacc n) (xowner n) (all_there w n) xserve xok (w_st w n) o with
  | Val _ s' => World (put (w_st w) n s') (put (w_in w) n (w_in w n ++ taken xacc (all_there w n) w n o))
  | Exn _ _ => w
  end.
Definition yrun (l : list (Z * op)) : world := fold_left ystep l new_world.
Definition yasked : list (Z * op) :=
  xsetup ++ [relay 1 2; relay 2 1; relay 2 3; relay 3 2; relay 2 1; relay 1 2; relay 3 2; (1, SendMessage 71 3 7 5 (PBytes [8]) 0); relay 2 1; relay 3 2; relay 2 3; relay 1 2].
(** network 3 removes the link to network 2 and adds it again *)
Definition yagain : list (Z * op) := [(3, RemoveRoute 903 1); (3, RemoveLink 903 (me xacc 2)); (3, AddLink 903 (me xacc 2)); (3, AddRelay 903 (me xacc 2) 50); (3, AddRoute 903 1 2); relay 3 2].
(** network 1 asks once more; the owner of network 2 drops this, but gives the numbers of the first request *)
Definition ydrop : list (Z * op) := [(2, AddService 902 7 72); (1, SendMessage 71 3 7 6 (PBytes [9]) 0); (2, DropMessage 902 1 3 7 5 2 None); relay 1 2].
