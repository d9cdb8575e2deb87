(** Who may do what at the message center for the EVM. *)
From Coq Require Import String Ascii ZArith List Bool.
From Verif Require Import Base M_SolRlp M_BtpAddr M_Bridge M_JMap M_SBmc.
Import ListNotations.
Open Scope Z_scope.

(** The owners are counted, there is at least one, and the zero address is none unless it deployed. *)
Definition owners_ok (deployer : Z) (m : man) : Prop :=
  exists l, NoDup l /\ (forall a, o_is m a = true <-> In a l) /\ o_count m = Z.of_nat (length l) /\ l <> [] /\ (deployer <> 0 -> o_is m 0 = false).
(** What only owners change; fees may vanish with their route. *)
Record kept (m m' : man) : Prop := Kept {
  kp_owners : o_is m' = o_is m /\ o_count m' = o_count m; kp_services : h_of m' = h_of m; kp_verifiers : v_of m' = v_of m; kp_relays : relays_of m' = relays_of m; kp_links : links m' = links m;
  kp_isLink : forall k, isLink m' k = isLink m k; kp_fees : forall d, fees_of m' d = fees_of m d \/ fees_of m' d = []; kp_handler : fee_handler m' = fee_handler m }.
(** Whose reward a caller may claim. *)
Definition claims_for (self : Z) (m : man) (c : Z) : Z := if c =? fee_handler m then self else c.

(** * The latest decision *)
(** what a call decides about a service's contract, a network's verifier, an owner, a link, a link's relay, the fee handler *)
Definition says_service (k : text) (o : op) : option Z := match o with AddService _ x a => if bytes_eqb x k then Some a else None | RemoveService _ x => if bytes_eqb x k then Some 0 else None | _ => None end.
Definition says_verifier (k : text) (o : op) : option Z := match o with AddVerifier _ x a => if bytes_eqb x k then Some a else None | RemoveVerifier _ x => if bytes_eqb x k then Some 0 else None | _ => None end.
Definition says_owner (a : Z) (o : op) : option bool := match o with AddOwner _ x => if x =? a then Some true else None | RemoveOwner _ x => if x =? a then Some false else None | _ => None end.
Definition says_link (k : text) (o : op) : option bool := match o with AddLink _ x => if bytes_eqb x k then Some true else None | RemoveLink _ x => if bytes_eqb x k then Some false else None | _ => None end.
Definition says_relay (k : text) (a : Z) (o : op) : option bool :=
  match o with
  | AddRelay _ x b => if bytes_eqb x k && (b =? a) then Some true else None
  | RemoveRelay _ x b => if bytes_eqb x k && (b =? a) then Some false else None
  | RemoveLink _ x => if bytes_eqb x k then Some false else None
  | _ => None
  end.
Definition says_handler (o : op) : option Z := match o with SetFeeHandler _ a => Some a | _ => None end.
(** the last decision in a history of calls *)
Fixpoint latest {A} (f : op -> option A) (d : A) (l : list op) : A := match l with [] => d | o :: r => latest f (match f o with Some v => v | None => d end) r end.
(** the calls of a history that did not revert *)
Fixpoint done (ex : st -> op -> option st) (s : st) (ops : list op) : list op :=
  match ops with [] => [] | o :: r => match ex s o with Some s' => o :: done ex s' r | None => done ex s r end end.
