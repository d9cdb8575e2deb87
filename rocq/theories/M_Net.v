(** Many networks, each with its message center (M_JBmc.v, javascore/bmc BTPMessageCenter.java), joined by relays.
    What is outside the contracts is taken as doc/ says it works: the verifier a center asks about a neighbour
    (BTPMessageCenter.java 523-531, bmv.handleRelayMessage) answers only with messages the neighbour's center
    has put out for this center, from the number asked for on, in order (this is what C50, C62, C66, C85 prove of the
    verifiers); relays may be late, lie or do nothing.  Owners do not remove links (numbers would start again), and one
    who drops a message (BTPMessageCenter.java 971-1008) says correctly which one it is.  Everything else is arbitrary:
    topology, routes, services, failures of the chain, other administration, the order of all calls. *)
From Coq Require Import String Ascii ZArith List Bool.
From Verif Require Import Base M_JMap M_JBmc S_JBmc.
Import ListNotations.
Open Scope Z_scope.

(** The messages put out for an address, in order. *)
Fixpoint sent_msgs (a : addr) (os : list out) : list msg :=
  match os with
  | [] => []
  | OSent b _ _ m :: r => if addr_eqb a b then m :: sent_msgs a r else sent_msgs a r
  | _ :: r => sent_msgs a r
  end.
(** The state of every message center; and, to speak about the past, the messages each has taken in, with the
    network they came from, in order. *)
Record world := World { w_st : Z -> st; w_in : Z -> list (Z * msg) }.
Definition put {A} (f : Z -> A) (n : Z) (x : A) : Z -> A := fun k => if k =? n then x else f k.

Section NET.
(** account of the message center of each network; its address as the chain knows it; who deployed it *)
Variables acc self deployer : Z -> Z.
Definition me (n : Z) : addr := Addr n (acc n).
Definition channel (w : world) (p n : Z) : list msg := sent_msgs (me n) (s_out (w_st w p)).

(** What the verifiers of network n may answer in this world. *)
Definition sound (w : world) (n : Z) (verify : nat -> Z -> addr -> Z -> list Z -> option (list (option msg))) : Prop :=
  forall i v prev rx b oms, verify i v prev rx b = Some oms ->
    exists p k, prev = me p /\ oms = map Some (firstn k (skipn (Z.to_nat rx) (channel w p n))).
(** What owners of network n may do. *)
Definition rightly (w : world) (n : Z) (o : op) : Prop :=
  match o with
  | RemoveLink _ _ => False
  | DropMessage _ src seq svc sn nsn _ =>
      forall prev, resolveNext (w_st w n) src = inl prev -> exists p m, prev = me p /\ nth_error (channel w p n) (Z.to_nat (seq - 1)) = Some m /\
        m_src m = src /\ m_svc m = svc /\ m_sn m = sn /\ m_nsn m = nsn
  | _ => True
  end.
(** What a call takes in: the messages the verifier returned, or the one that is dropped. *)
Definition taken (verify : nat -> Z -> addr -> Z -> list Z -> option (list (option msg))) (w : world) (n : Z) (o : op) : list (Z * msg) :=
  match o with
  | HandleRelay _ prev _ => map (fun m => (a_net prev, m)) (incoming verify (w_st w n) o)
  | DropMessage _ src seq _ _ _ _ =>
      match resolveNext (w_st w n) src with
      | inl prev => match nth_error (channel w (a_net prev) n) (Z.to_nat (seq - 1)) with Some m => [(a_net prev, m)] | None => [] end
      | inr _ => []
      end
  | _ => []
  end.
Inductive wstep (nets : list Z) (w : world) : world -> Prop :=
| ws : forall n o verify serve chain_ok u s', In n nets -> sound w n verify -> rightly w n o ->
    exec n (self n) (deployer n) verify serve chain_ok (w_st w n) o = Val u s' ->
    wstep nets w (World (put (w_st w) n s') (put (w_in w) n (w_in w n ++ taken verify w n o))).
Definition new_world : world := World (fun _ => init) (fun _ => []).
Inductive reach (nets : list Z) : world -> Prop :=
| rc_new : reach nets new_world
| rc_step : forall w w', reach nets w -> wstep nets w w' -> reach nets w'.

(** The messages network n has taken in from network p. *)
Definition got (w : world) (p n : Z) : list msg := map snd (filter (fun x => fst x =? p) (w_in w n)).
(** The messages network p has put out for network n that have not arrived. *)
Definition flying (w : world) (p n : Z) : list msg := skipn (length (got w p n)) (channel w p n).
End NET.
