(** C104: permissions of the Python message center. *)
From Coq Require Import String Ascii ZArith List Bool Lia.
From Coq Require Import ZifyBool.
From Verif Require Import Base L_Base GoStr M_JMap M_PyDb S_PyDb L_PyDb M_PyBmc L_PyBmc M_PyLink L_PyLink M_PyPerm S_PyPerm L_PyPerm.
Import ListNotations.
Open Scope Z_scope.
Local Notation bytes := (list Z).

Local Definition any (_ : bytes) : bool := true.
Local Definition B (s : string) : bytes := str s.
(** the owner grants, then switches access control on *)
Local Definition g1 : list pcall := [PAdd (B "o") (B "o") (B "o") (B "addPermission,removePermission,addService"); PAdd (B "x") (B "x") (B "y") (B "addLink"); PAccess (B "o") true].
Local Definition s1 : pstate := prun any (installed (B "o")) g1.

(** Who passes the check of a method *)
Theorem C104_gate : forall s sender origin api, api <> [] -> (has_permission s sender origin api = Val tt <-> allowed s sender origin api).
Proof. exact gate_spec. Qed.
Print Assumptions C104_gate.
Example C104_ex_gate : has_permission s1 (B "y") (B "z") (B "addLink") = Val tt /\ has_permission s1 (B "q") (B "y") (B "addLink") = Val tt /\ has_permission s1 (B "o") (B "y") (B "addLink") = Raise (unauthorized (B "addLink")) /\ has_permission s1 (B "q") (B "q") (B "addLink") = Raise (unauthorized (B "addLink")) /\ p_access s1 = true.
Proof. vm_compute. repeat split. Qed.

(** Only names of the list are ever stored. *)
Theorem C104_tidy : forall alnum owner cs, tidy (prun alnum (installed owner) cs).
Proof. intros alnum owner cs. apply run_tidy, installed_tidy. Qed.
Print Assumptions C104_tidy.
Example C104_ex_tidy : p_table s1 = [(B "o", B "addPermission,removePermission,addService"); (B "y", B "addLink")].
Proof. reflexivity. Qed.
(** A grant gives exactly the permissions it lists, to its address only. *)
Theorem C104_add : forall s sender origin a apis s', tidy s -> addPermission s sender origin a apis = Val s' ->
  allowed s sender origin (str "addPermission") /\ p_owner s' = p_owner s /\ p_access s' = p_access s /\ p_services s' = p_services s /\ (forall b api, holds s' b api <-> holds s b api \/ b = a /\ listed apis api).
Proof. intros s sender origin a apis s' T E. destruct (add_spec s sender origin a apis s' T E) as (G & _ & (A & C) & D & _ & H & _). auto. Qed.
Print Assumptions C104_add.
Example C104_ex_add : exists s', addPermission s1 (B "o") (B "o") (B "y") (B "addLink,removeLink") = Val s' /\ kget (B "y") (p_table s') = Some (B "addLink,removeLink").
Proof. eexists. split; [vm_compute; reflexivity|reflexivity]. Qed.
(** A grant that is allowed and lists names of the list goes through, unless the address has the empty entry. *)
Theorem C104_add_goes : forall s sender origin a l, allowed s sender origin (str "addPermission") -> l <> [] -> Forall (fun x => In x APIS) l -> kget a (p_table s) <> Some [] ->
  exists s', addPermission s sender origin a (join_keys l) = Val s'.
Proof.
  intros s sender origin a l A NE F D. unfold addPermission. apply gate_spec in A; [|discriminate]. rewrite A. cbn [bind]. rewrite (checked_valid l NE F). cbn [bind]. destruct (known s a) eqn:K; [|eexists; reflexivity]. unfold known in K. unfold entry. destruct (kget a (p_table s)) as [t|]; [|discriminate K]. destruct t as [|c t]; [congruence|]. eexists. reflexivity.
Qed.
Print Assumptions C104_add_goes.
Example C104_ex_add_goes : allowed s1 (B "o") (B "o") (str "addPermission") /\ Forall (fun x => In x APIS) [B "sendMessage"] /\ kget (B "w") (p_table s1) <> Some [].
Proof. split; [apply gate_spec; [discriminate|vm_compute; reflexivity]|]. split; [constructor; [vm_compute; tauto|constructor]|discriminate]. Qed.
(** A removal takes away only what it lists, from its address only, and all of it where each name is there once. *)
Theorem C104_remove : forall s sender origin a apis s', tidy s -> removePermission s sender origin a apis = Val s' ->
  allowed s sender origin (str "removePermission") /\ p_owner s' = p_owner s /\ p_access s' = p_access s /\ p_services s' = p_services s /\
  (forall b api, ~ (b = a /\ listed apis api) -> (holds s' b api <-> holds s b api)) /\
  (forall t api, kget a (p_table s) = Some t -> listed_once t -> listed apis api -> ~ holds s' a api).
Proof.
  intros s sender origin a apis s' T E. destruct (remove_spec s sender origin a apis s' T E) as (G & _ & (A & C) & D & H1 & H2 & H3 & _). split; [exact G|]. split; [exact A|]. split; [exact C|]. split; [exact D|]. split; [|exact H3]. intros b api N. split; [apply H1|]. intros H. apply H2; assumption.
Qed.
Print Assumptions C104_remove.
Example C104_ex_remove : exists s', removePermission s1 (B "o") (B "o") (B "o") (B "addService") = Val s' /\ kget (B "o") (p_table s') = Some (B "addPermission,removePermission") /\ listed_once (B "addPermission,removePermission,addService").
Proof.
  eexists. split; [vm_compute; reflexivity|]. split; [reflexivity|]. exists [B "addPermission"; B "removePermission"; B "addService"]. split; [reflexivity|].
  split; [repeat (constructor; [apply has_comma; vm_compute; reflexivity|]); constructor|]. constructor; [intros [X|[X|[]]]; discriminate X|]. constructor; [intros [X|[]]; discriminate X|]. constructor; [intros []|constructor].
Qed.
(** A permission granted twice in one text survives its removal. *)
Theorem C104_twice_refuted : exists s s', tidy s /\ removePermission s (B "o") (B "o") (B "y") (B "addLink") = Val s' /\ holds s' (B "y") (B "addLink").
Proof.
  exists (prun any (installed (B "o")) [PAdd (B "o") (B "o") (B "y") (B "addLink,addLink")]). eexists. split; [apply C104_tidy|]. split; [vm_compute; reflexivity|]. exists (B "addLink"). split; [reflexivity|]. apply listed_split. split; [discriminate|]. exists [B "addLink"]. split; [reflexivity|left; reflexivity].
Qed.
Print Assumptions C104_twice_refuted.

(** Nobody gets a permission but by the call of someone who may grant it. *)
Theorem C104_only_granted : forall alnum owner cs c b api, let s := prun alnum (installed owner) cs in holds (prun alnum (installed owner) (cs ++ [c])) b api -> ~ holds s b api ->
  (exists x o l, c = PAdd x o b l /\ listed l api /\ allowed s x o (str "addPermission")) \/
  (exists x o v, c = PService x o v b /\ api = str "sendMessage" /\ allowed s x o (str "addPermission") /\ allowed s x o (str "addService")).
Proof. intros alnum owner cs c b api s H N. unfold prun in H. rewrite fold_left_app in H. cbn [fold_left] in H. apply (step_gain alnum s c b api); [apply C104_tidy|exact H|exact N]. Qed.
Print Assumptions C104_only_granted.
(** Nobody loses one but by the call of someone who may take it. *)
Theorem C104_only_revoked : forall alnum owner cs c b api, let s := prun alnum (installed owner) cs in holds s b api -> ~ holds (prun alnum (installed owner) (cs ++ [c])) b api ->
  (exists x o l, c = PRemove x o b l /\ listed l api /\ allowed s x o (str "removePermission")) \/
  (exists x o v, c = PNoService x o v /\ kget v (p_services s) = Some b /\ api = str "sendMessage" /\ allowed s x o (str "removePermission") /\ allowed s x o (str "removeService")).
Proof. intros alnum owner cs c b api s H N. unfold prun in N. rewrite fold_left_app in N. cbn [fold_left] in N. apply (step_loss alnum s c b api); [apply C104_tidy|exact H|exact N]. Qed.
Print Assumptions C104_only_revoked.
Example C104_ex_only : kget (B "w") (p_table (prun any (installed (B "o")) (g1 ++ [PService (B "o") (B "o") (B "s") (B "w")]))) = Some (B "sendMessage") /\ kget (B "w") (p_table s1) = None /\
  kget (B "o") (p_table (prun any (installed (B "o")) (g1 ++ [PRemove (B "o") (B "o") (B "o") (B "addService")]))) = Some (B "addPermission,removePermission").
Proof. vm_compute. repeat split. Qed.
(** Only the owner switches access control, and the owner stays. *)
Theorem C104_owner : forall alnum owner cs c, let s := prun alnum (installed owner) cs in p_owner s = owner /\
  (p_access (prun alnum (installed owner) (cs ++ [c])) <> p_access s -> exists e, c = PAccess owner e).
Proof.
  intros alnum owner cs c s. assert (O : p_owner s = owner). { unfold s. clear. pose proof (installed_tidy owner) as T. assert (X : forall q, tidy q -> p_owner (prun alnum q cs) = p_owner q) by (induction cs as [|d cs IH]; intros q Q; [reflexivity|]; unfold prun; cbn [fold_left]; change (p_owner (prun alnum (pstep alnum q d) cs) = p_owner q); rewrite IH by (apply step_tidy, Q); apply (step_owner alnum q d Q)). apply (X _ T). }
  split; [exact O|]. intros N. unfold prun in N. rewrite fold_left_app in N. cbn [fold_left] in N. destruct (step_owner alnum s c (C104_tidy alnum owner cs)) as (_ & [A|(e & -> & _)]); [contradiction|]. exists e. rewrite O. reflexivity.
Qed.
Print Assumptions C104_owner.
Example C104_ex_owner : p_access (prun any (installed (B "o")) [PAccess (B "x") true]) = false /\ p_access (prun any (installed (B "o")) [PAccess (B "o") true]) = true.
Proof. split; reflexivity. Qed.
(** With access control on and nobody to grant, nobody gets a permission again until the owner switches it off. *)
Theorem C104_locked_refuted : forall alnum s cs, tidy s -> p_access s = true -> (forall b, ~ holds s b (str "addPermission")) -> Forall (no_switch (p_owner s)) cs ->
  forall b api, holds (prun alnum s cs) b api -> holds s b api.
Proof.
  intros alnum s cs. revert s. induction cs as [|c cs IH]; intros s T A N F b api H; [exact H|]. inversion F as [|? ? F1 F2]; subst. unfold prun in H. cbn [fold_left] in H. change (holds (prun alnum (pstep alnum s c) cs) b api) in H.
  assert (NA : forall x o, ~ allowed s x o (str "addPermission")) by (intros x o [X|[X|(_ & X)]]; [congruence|apply (N _ X)|apply (N _ X)]).
  destruct (step_owner alnum s c T) as (O & AC).
  assert (SUB : forall b api, holds (pstep alnum s c) b api -> holds s b api).
  { intros d ap HD. assert (DEC : holds s d ap \/ ~ holds s d ap). { unfold holds. destruct (kget d (p_table s)) as [t|]; [|right; intros (t & X & _); discriminate X]. assert (NE : ap <> []) by (destruct HD as (q & _ & L); apply L). destruct (from_string t) as [m|] eqn:FS; [|right; intros (q & X & L); injection X as <-; apply listed_split in L as (_ & z & L & _); congruence]. destruct (member ap m) eqn:M; [left; exists t; split; [reflexivity|]; apply listed_split; split; [exact NE|]; exists m; split; [exact FS|apply member_in, M]|right; intros (q & X & L); injection X as <-; apply listed_split in L as (_ & z & L & I); apply member_in in I; congruence]. }
    destruct DEC as [X|X]; [exact X|]. destruct (step_gain alnum s c d ap T HD X) as [(x & o & l & _ & _ & Y)|(x & o & v & _ & _ & Y & _)]; elim (NA x o Y). }
  apply SUB. refine (IH (pstep alnum s c) (step_tidy alnum s c T) _ _ _ b api H).
  - destruct AC as [AC|(e & -> & _)]; [congruence|]. exfalso. apply F1. reflexivity.
  - intros d X. apply (N d). apply SUB, X.
  - rewrite O. exact F2.
Qed.
Print Assumptions C104_locked_refuted.
Example C104_ex_locked : let s := prun any (installed (B "o")) [PAccess (B "o") true] in p_access s = true /\ p_table s = [] /\ p_table (prun any s [PAdd (B "o") (B "o") (B "o") (B "addLink")]) = [].
Proof. repeat split. Qed.
(** setLink and nextRelays ask for permissions that cannot be granted: with access control on nobody may call them. *)
Theorem C104_ungrantable_refuted : forall alnum owner cs sender origin api, let s := prun alnum (installed owner) cs in p_access s = true -> api = str "setLink" \/ api = str "nextRelays" -> has_permission s sender origin api <> Val tt.
Proof.
  intros alnum owner cs sender origin api s A P E. assert (NI : ~ In api APIS) by (intros I; destruct P as [-> | ->]; apply member_in in I; vm_compute in I; discriminate I). assert (NE : api <> []) by (destruct P as [-> | ->]; discriminate). apply gate_spec in E; [|exact NE].
  assert (X : forall w, ~ holds s w api). { intros w (t & K & L). destruct (C104_tidy alnum owner cs w t K) as (l & -> & F). apply (listed_join l api F) in L. apply NI. exact (proj1 (Forall_forall _ _) F api L). }
  destruct E as [E|[E|(_ & E)]]; [congruence|elim (X _ E)|elim (X _ E)].
Qed.
Print Assumptions C104_ungrantable_refuted.
Example C104_ex_ungrantable : addPermission s1 (B "o") (B "o") (B "o") (B "setLink") = Raise (X_BMC 0 "invalid Permission") /\ p_access s1 = true.
Proof. vm_compute. split; reflexivity. Qed.
(** An address whose last permission is taken away never gets one again, and no service is registered at it, with or without access control. *)
Theorem C104_dead_refuted : forall alnum s cs a, tidy s -> kget a (p_table s) = Some [] -> let s' := prun alnum s cs in
  (forall x o l, exists e, addPermission s' x o a l = Raise e) /\ (forall x o v, exists e, grantService alnum s' x o v a = Raise e) /\ (forall o api, p_access s' = true -> has_permission s' a o api = Raise XOther).
Proof.
  intros alnum s cs a T D s'. assert (D' : kget a (p_table s') = Some []) by (apply dead_run; assumption). assert (T' : tidy s') by (apply run_tidy, T). split; [|split].
  - intros x o l. destruct (addPermission s' x o a l) as [q|e] eqn:E; [|exists e; reflexivity]. destruct (add_spec s' x o a l q T' E) as (_ & _ & _ & _ & _ & _ & _ & N). contradiction.
  - intros x o v. destruct (grantService alnum s' x o v a) as [q|e] eqn:E; [|exists e; reflexivity]. apply service_add in E as (_ & E). destruct (add_spec (with_svcs s' (kput v a (p_services s'))) x o a _ q T' E) as (_ & _ & _ & _ & _ & _ & _ & N). contradiction.
  - intros o api A. unfold has_permission. rewrite A. unfold known, entry. rewrite D'. cbn [bind]. rewrite D'. reflexivity.
Qed.
Print Assumptions C104_dead_refuted.
(** So a service that was registered and removed cannot come back at its address, under any name. *)
Theorem C104_service_again_refuted : forall alnum s x o x2 o2 v a cs x3 o3 v2, tidy s -> p_access s = false -> kget a (p_table s) = None -> kget v (p_services s) = None -> serves s a = false -> alnum v = true ->
  exists e, grantService alnum (prun alnum s ([PService x o v a; PNoService x2 o2 v] ++ cs)) x3 o3 v2 a = Raise e.
Proof.
  intros alnum s x o x2 o2 v a cs x3 o3 v2 T A K V S AL. unfold prun. rewrite fold_left_app. fold (prun alnum).
  set (s2 := fold_left (pstep alnum) [PService x o v a; PNoService x2 o2 v] s). assert (T2 : tidy s2) by (apply (run_tidy alnum [PService x o v a; PNoService x2 o2 v] s T)).
  assert (D : kget a (p_table s2) = Some []).
  { set (s1 := PState (p_owner s) (p_access s) (kput a (str "sendMessage") (p_table s)) (kput v a (p_services s))).
    assert (E1 : pstep alnum s (PService x o v a) = s1). { unfold pstep. cbn [pcall_result]. unfold grantService, has_permission. rewrite A. cbn [bind]. rewrite AL. cbn [negb]. rewrite V. unfold addPermission, has_permission. cbn [with_svcs p_access]. rewrite A. cbn [bind]. change (checked (str "sendMessage")) with (Val [str "sendMessage"]). cbn [bind]. unfold known. cbn [with_svcs p_table]. rewrite K. reflexivity. }
    assert (E2 : pstep alnum s1 (PNoService x2 o2 v) = PState (p_owner s) (p_access s) (kput a [] (kput a (str "sendMessage") (p_table s))) (kdel v (kput v a (p_services s)))).
    { unfold pstep. cbn [pcall_result]. unfold revokeService, has_permission, s1. cbn [p_access p_owner p_table p_services with_svcs]. rewrite A. cbn [bind p_services]. rewrite kget_put_same. cbv zeta.
      assert (SV : forall q, p_services q = kdel v (kput v a (p_services s)) -> serves q a = false). { intros q Q. unfold serves in *. rewrite Q. clear - V S. revert V S. unfold kget, kput. induction (p_services s) as [|(k, w) r IH]; cbn [aget aput kdel existsb snd]; [intros _ _; rewrite bytes_eqb_refl; reflexivity|]. destruct (bytes_eqb v k) eqn:B1; [discriminate|]. intros V S. apply orb_false_iff in S as (S1 & S2). cbn [kdel]. rewrite B1. cbn [existsb snd]. rewrite S1. apply IH; assumption. }
      rewrite SV by reflexivity. unfold removePermission, has_permission. cbn [with_svcs p_access p_owner p_table p_services].  cbn [bind]. change (checked (str "sendMessage")) with (Val [str "sendMessage"]). cbn [bind]. unfold known, entry. cbn [with_svcs p_table]. rewrite kget_put_same. change (from_string (str "sendMessage")) with (Some [str "sendMessage"]). cbn [need bind]. reflexivity. }
    unfold s2. cbn [fold_left]. rewrite E1, E2. cbn [p_table]. apply kget_put_same. }
  apply (C104_dead_refuted alnum s2 cs a T2 D).
Qed.
Print Assumptions C104_service_again_refuted.
Example C104_ex_service_again : let s := installed (B "o") in tidy s /\ p_access s = false /\ kget (B "w") (p_table s) = None /\ kget (B "v") (p_services s) = None /\ serves s (B "w") = false /\
  prun any s [PService (B "o") (B "o") (B "v") (B "w"); PNoService (B "o") (B "o") (B "v")] = PState (B "o") false [(B "w", [])] [].
Proof. split; [apply installed_tidy|]. vm_compute. repeat split. Qed.
