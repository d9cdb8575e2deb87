(** What permissions should do, independently of how they are stored. *)
From Coq Require Import String Ascii ZArith List Bool.
From Verif Require Import Base GoStr M_PyDb M_PyBmc M_PyPerm.
Import ListNotations.
Open Scope Z_scope.
Local Notation bytes := (list Z).

(** A text lists a name: it is names without commas, joined by commas.  The empty text is no name. *)
Definition listed (t api : bytes) : Prop := api <> [] /\ exists l, t = join_keys l /\ Forall (fun x => ~ In comma x) l /\ In api l.
(** How often it is listed does not matter, except here. *)
Definition listed_once (t : bytes) : Prop := exists l, t = join_keys l /\ Forall (fun x => ~ In comma x) l /\ NoDup l.
Definition holds (s : pstate) (who api : bytes) : Prop := exists t, kget who (p_table s) = Some t /\ listed t api.
(** Who may call: everybody without access control; otherwise who holds the permission, or who has none at all and calls for an origin that holds it. *)
Definition allowed (s : pstate) (sender origin api : bytes) : Prop :=
  p_access s = false \/ holds s sender api \/ kget sender (p_table s) = None /\ holds s origin api.
(** Only names of the list are stored. *)
Definition tidy (s : pstate) : Prop := forall a t, kget a (p_table s) = Some t -> exists l, t = join_keys l /\ Forall (fun x => In x APIS) l.
(** The owner does not switch. *)
Definition no_switch (owner : bytes) (c : pcall) : Prop := match c with PAccess x _ => x <> owner | _ => True end.
