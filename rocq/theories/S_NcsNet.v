(** What services on several networks should keep to together. *)
From Coq Require Import ZArith List Bool.
From Verif Require Import Base M_JMap M_JBmc M_Ncs S_Ncs M_NcsNet.
Import ListNotations.
Open Scope Z_scope.

(** The transfer something under way belongs to: the network it was started at, and its number there. *)
Definition transfer_of (i : item) : Z * Z :=
  match i with
  | IMsg src sn dst (BResponse _) => (dst, sn)
  | IMsg src sn _ _ => (src, sn)
  | IErr dst sn => (dst, sn)
  end.
Definition pending_details (w : world) (p : Z * Z) : list detail := match aget Z.eqb (snd p) (n_tx (w_st w (fst p))) with Some t => t_assets t | None => [] end.
Definition is_ok (i : item) : bool := match i with IMsg _ _ _ (BResponse _) => true | _ => false end.
(** What was carried out of a coin, but the answer is still under way. *)
Definition answered_under_way (w : world) (c : Z) : Z := sumOf (fun i => if is_ok i then net_of c (pending_details w (transfer_of i)) else 0) (w_fly w).
(** What a network owes of its native coin; the tokens of a coin on the networks that are not its home. *)
Definition owes (w : world) (h c : Z) : Z := lockedSum (w_st w h) c + refundSum (w_st w h) c + getFee (w_st w h) c.
Definition abroad (nets : list Z) (tid : Z -> Z) (w : world) (h c : Z) : Z := sumOf (fun n => if n =? h then 0 else tokens (w_st w n) (tid c)) nets.
(** Answers get through; no batch names a coin twice. *)
Definition answers_arrive (o : wop) : Prop := match o with WDropAnswer _ => False | _ => True end.
Definition names_once (o : wop) : Prop := match o with WLocal _ _ (TransferBatch _ cs _ _ _) => NoDup cs | _ => True end.
(** How often a network answered OK to a request; how often any did. *)
Definition carried_at (w : world) (d n sn : Z) : Z :=
  sumOf (fun e => match e with NSend to k (BResponse code) => if (to =? n) && (k =? sn) && (code =? RC_OK) then 1 else 0 | _ => 0 end) (n_out (w_st w d)).
Definition carried (nets : list Z) (w : world) (n sn : Z) : Z := sumOf (fun d => carried_at w d n sn) nets.
(** How many messages and errors under way belong to a transfer. *)
Definition under_way (w : world) (n sn : Z) : Z := sumOf (fun i => if zz_eqb (transfer_of i) (n, sn) then 1 else 0) (w_fly w).
(** Runs in which answers get through. *)
Definition answered_run (l : list wop) : Prop := Forall answers_arrive l.
