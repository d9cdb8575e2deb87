(** Two token services (pyscore/token/token_bsh.py, M_PyToken) with the messages between them.
    The centers and relays are taken to be honest: a message that one contract gives to its center for the network of the other (line 328) is on the way until the other
    takes it, once and in whatever order (handleBTPMessage, lines 239-280), or until it is reported back as failed to its sender (handleBTPError, lines 282-298).
    A message at which the receiver raises stays on the way.  Everything else is open: any calls of anybody at any time, messages to third networks, failing centers and tokens.
    Messages of third networks are left out. *)
From Coq Require Import ZArith List Bool.
From Verif Require Import Base GoStr M_JMap M_PyBmv M_PyBmc M_PyToken S_PyToken.
Import ListNotations.
Open Scope Z_scope.
Local Notation bytes := (list Z).

Record pair := Pair { p_a : tstate; p_b : tstate; p_ab : list (Z * jmsg); p_ba : list (Z * jmsg) }.
Definition flip (x : pair) : pair := Pair (p_b x) (p_a x) (p_ba x) (p_ab x).
(** What was given to the center for [net] (line 328) between [s] and [s'] *)
Fixpoint for_net (net : bytes) (l : list tout) : list (Z * jmsg) :=
  match l with [] => [] | TSend sn n m :: r => (if bytes_eqb n net then [(sn, m)] else []) ++ for_net net r | _ :: r => for_net net r end.
Definition sent (net : bytes) (s s' : tstate) : list (Z * jmsg) := for_net net (skipn (length (t_out s)) (t_out s')).
(** Calls that do not come from the center *)
Definition local (c : tcall) : Prop := match c with KMessage _ _ _ _ _ | KError _ _ => False | _ => True end.
(** Calls whose transfers go to [net] *)
Definition to_net (net : bytes) (c : tcall) : Prop := match c with KTransfer _ _ to _ _ => forall a, valid_address to = Val a -> pa_net a = net | _ => True end.
(** One step at the first contract, whose partner is at [peer], with calls as [ok] allows; the second argument is what deposits and reclaims bring *)
Inductive half (addr_of : bytes -> option bytes) (allowed : tcall -> Prop) (peer : bytes) (x : pair) : (bytes -> Z) -> pair -> Prop :=
| H_call : forall c, local c -> allowed c ->
    half addr_of allowed peer x (fun n => if accepted addr_of (p_a x) c then brings addr_of (p_a x) c n else 0)
      (Pair (tstep addr_of (p_a x) c) (p_b x) (p_ab x ++ sent peer (p_a x) (tstep addr_of (p_a x) c)) (p_ba x))
| H_take : forall l sn m r ok s', p_ba x = l ++ (sn, m) :: r -> tcall_result addr_of (p_a x) (KMessage (t_bmc (p_a x)) peer sn m ok) = Val s' ->
    half addr_of allowed peer x (fun _ => 0) (Pair s' (p_b x) (p_ab x ++ sent peer (p_a x) s') (l ++ r))
| H_back : forall l sn to n v r s', p_ab x = l ++ (sn, JReq to n v) :: r -> tcall_result addr_of (p_a x) (KError (t_bmc (p_a x)) sn) = Val s' ->
    half addr_of allowed peer x (fun _ => 0) (Pair s' (p_b x) (l ++ r) (p_ba x)).
(** [only]: whether transfers go to the partner only *)
Definition allow (only : bool) (net : bytes) (c : tcall) : Prop := if only then to_net net c else True.
(** Histories from the installation of both contracts, at the networks [na] and [nb], with what deposits and reclaims brought *)
Inductive history (addr_a addr_b : bytes -> option bytes) (na nb : bytes) (only : bool) : pair -> (bytes -> Z) -> Prop :=
| Hi_start : forall oa ba ob bb, history addr_a addr_b na nb only (Pair (token_installed oa ba) (token_installed ob bb) [] []) (fun _ => 0)
| Hi_a : forall x d e y, history addr_a addr_b na nb only x d -> half addr_a (allow only nb) nb x e y -> history addr_a addr_b na nb only y (fun n => d n + e n)
| Hi_b : forall x d e y, history addr_a addr_b na nb only x d -> half addr_b (allow only na) na (flip x) e (flip y) -> history addr_a addr_b na nb only y (fun n => d n + e n).
