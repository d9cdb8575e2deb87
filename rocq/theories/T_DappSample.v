(** C111: rollback data of the sample of the call service comes back as it was sent, at most once. *)
From Coq Require Import ZArith List Bool Lia.
From Verif Require Import Base L_Base GoStr M_JMap L_JMap M_DappSample S_DappSample L_DappSample.
Import ListNotations.
Open Scope Z_scope.
Local Notation bytes := (list Z).

Section C111.
Context (svc own : bytes) (enc : Z -> bytes -> bytes) (dec : bytes -> option (Z * bytes)) (H : bytes -> bytes).
Notation run java := (xtrees java svc own enc dec H dapp_installed).
Notation exec java := (xexec java svc own enc dec H).

(** The contract holds just the rollback data that is waiting; no id is given out twice. *)
Theorem C111_waiting : forall java l, let s := run java l in
  (forall id, aget Z.eqb id (x_rb s) = waiting id (x_log s)) /\ NoDup (stored_ids (x_log s)) /\ (forall id, In id (stored_ids (x_log s)) -> 0 < id <= x_last s).
Proof. intros java l s. pose proof (good_always java svc own enc dec H l) as G. destruct G. auto. Qed.

(** In Java what comes back is waiting data, as it was sent, with the number the call service gave. *)
Theorem C111_back_java : forall l after id from sn r before, x_log (run true l) = after ++ XBack id from sn r :: before ->
  from = own /\ exists a b, before = a ++ XStored id r sn :: b /\ ~ back id a.
Proof.
  intros l after id from sn r before E. pose proof (good_always true svc own enc dec H l) as G.
  pose proof (all_fair_split _ _ _ _ (g_fair _ _ _ _ _ G) _ _ _ E) as F. cbn [fair] in F. destruct F as [F1 F2].
  apply bytes_eqb_eq in F1. split; [congruence|].
  destruct (waiting id before) as [[r' sn']|] eqn:W; [|destruct F2; discriminate]. destruct F2 as [F2 F3]. apply bytes_eqb_eq in F2. subst. apply waiting_stored. exact W.
Qed.
(** There it comes back at most once. *)
Theorem C111_once_java : forall l after id from sn r before, x_log (run true l) = after ++ XBack id from sn r :: before -> ~ back id before.
Proof.
  intros l after id from sn r before E (f & n & q & I). destruct (C111_back_java _ _ _ _ _ _ _ E) as (_ & a & b & Eb & NB).
  assert (I2 : In (XBack id f n q) b) by (rewrite Eb in I; apply in_app_iff in I; destruct I as [I|[I|I]]; [exfalso; apply NB; exists f, n, q; exact I|discriminate|exact I]).
  apply in_split in I2. destruct I2 as (c & d & E2).
  assert (E3 : x_log (run true l) = (after ++ XBack id from sn r :: a ++ XStored id r sn :: c) ++ XBack id f n q :: d) by (rewrite E, Eb, E2, <- !app_assoc; cbn [app]; rewrite <- app_assoc; reflexivity).
  destruct (C111_back_java _ _ _ _ _ _ _ E3) as (_ & a' & b' & Eb' & _).
  pose proof (g_ids _ _ _ _ _ (good_always true svc own enc dec H l)) as ND. cbn [app] in ND. rewrite E3, Eb' in ND.
  rewrite stored_ids_app in ND. cbn [stored_ids] in ND.
  assert (I1 : In id (stored_ids (after ++ XBack id from sn r :: a ++ XStored id r sn :: c))).
  { rewrite stored_ids_app. apply in_app_iff. right. cbn [stored_ids]. rewrite stored_ids_app. apply in_app_iff. right. left. reflexivity. }
  assert (I2 : In id (stored_ids (a' ++ XStored id q n :: b'))) by (rewrite stored_ids_app; apply in_app_iff; right; left; reflexivity).
  revert ND I1 I2. generalize (stored_ids (after ++ XBack id from sn r :: a ++ XStored id r sn :: c)) as u. generalize (stored_ids (a' ++ XStored id q n :: b')) as w. clear. intros w u ND I1 I2.
  induction u as [|y u IH]; [destruct I1|]. cbn [app] in ND. inversion ND as [|? ? N1 N2]. subst. destruct I1 as [I1|I1]; [subst; apply N1; apply in_app_iff; right; exact I2|exact (IH N2 I1)].
Qed.
(** In Solidity it is waiting data up to the hash, or empty data under an id that has none. *)
Theorem C111_back_solidity : forall l after id from sn r before, x_log (run false l) = after ++ XBack id from sn r :: before ->
  H from = H own /\ ((exists r' a b, before = a ++ XStored id r' sn :: b /\ ~ back id a /\ H r' = H r) \/ (waiting id before = None /\ H r = H [] /\ sn = 0)).
Proof.
  intros l after id from sn r before E. pose proof (good_always false svc own enc dec H l) as G.
  pose proof (all_fair_split _ _ _ _ (g_fair _ _ _ _ _ G) _ _ _ E) as F. cbn [fair] in F. destruct F as [F1 F2].
  apply bytes_eqb_eq in F1. split; [congruence|].
  destruct (waiting id before) as [[r' sn']|] eqn:W; [|right; tauto]. destruct F2 as [F2 F3]. apply bytes_eqb_eq in F2. subst. left.
  destruct (waiting_stored _ _ _ _ W) as (a & b & E1 & E2). exists r', a, b. auto.
Qed.
(** Other messages are passed on unless they ask for a revert; none is from the own call service. *)
Theorem C111_messages : forall java l after from data before, x_log (run java l) = after ++ XMessage from data :: before -> from <> own /\ data <> REVERT_MESSAGE.
Proof.
  intros java l after from data before E. pose proof (good_always java svc own enc dec H l) as G.
  pose proof (all_fair_split _ _ _ _ (g_fair _ _ _ _ _ G) _ _ _ E) as F. cbn [fair] in F. destruct F as [F1 F2]. split; [|exact F2].
  intros X. subst. rewrite same_refl in F1. discriminate.
Qed.

(** Waiting data that the call service brings back is taken and is not waiting any more. *)
Theorem C111_accepts : forall java l id r sn nested, let s := run java l in waiting id (x_log s) = Some (r, sn) -> dec (enc id r) = Some (id, r) ->
  exists s', exec java (XCalls (XHandle svc own (enc id r)) nested) s = Some s' /\ x_log s' = XBack id own sn r :: x_log s /\
             aget Z.eqb id (x_rb s') = None /\ (forall i, i <> id -> aget Z.eqb i (x_rb s') = aget Z.eqb i (x_rb s)).
Proof.
  intros java l id r sn nested s W D. pose proof (good_always java svc own enc dec H l) as G. fold s in G. destruct G.
  cbn [xexec]. unfold handle. rewrite bytes_eqb_refl. cbn [negb]. rewrite same_refl, D, g_waiting, W, same_refl. eexists. split; [reflexivity|].
  split; [reflexivity|]. unfold xnote. cbn [x_rb]. split; [apply (adel_same _ zspec); exact g_keys|]. intros i N. apply (adel_other _ zspec); [exact g_keys|exact N].
Qed.
(** A message that asks for nothing special is taken from any other network. *)
Theorem C111_passes : forall s from data nested, from <> own -> data <> REVERT_MESSAGE ->
  exec true (XCalls (XHandle svc from data) nested) s = Some (Dapp (x_last s) (x_rb s) (XMessage from data :: x_log s)).
Proof.
  intros s from data nested N1 N2. cbn [xexec]. unfold handle. rewrite bytes_eqb_refl. cbn [negb]. unfold same.
  destruct (bytes_eqb own from) eqn:E1; [apply bytes_eqb_eq in E1; congruence|]. destruct (bytes_eqb REVERT_MESSAGE data) eqn:E2; [apply bytes_eqb_eq in E2; congruence|]. reflexivity.
Qed.
(** Nobody else can bring anything. *)
Theorem C111_others : forall java s caller from data nested, caller <> svc -> exec java (XCalls (XHandle caller from data) nested) s = None.
Proof. intros java s caller from data nested N. cbn [xexec]. unfold handle. destruct (bytes_eqb caller svc) eqn:E; [apply bytes_eqb_eq in E; congruence|]. reflexivity. Qed.
(** What is sent: a fresh id and the rollback data, stored with the number that comes back; nothing when the call service reverts. *)
Theorem C111_sends : forall java s to data r nested answer, r <> [] ->
  match answer with
  | None => exec java (XCalls (XSend to data (Some r) answer) nested) s = None
  | Some sn => exists s', exec java (XCalls (XSend to data (Some r) answer) []) s = Some s' /\ x_last s' = x_last s + 1 /\
                 x_log s' = XStored (x_last s + 1) r sn :: XSent to data (enc (x_last s + 1) r) :: x_log s /\ aget Z.eqb (x_last s + 1) (x_rb s') = Some (r, sn)
  end.
Proof.
  intros java s to data r nested answer N. assert (T : two_way java (Some r) = Some r) by (unfold two_way; destruct java; [reflexivity|]; destruct r; [congruence|reflexivity]).
  destruct answer as [sn|]; cbn [xexec]; rewrite T; cbv zeta; [|reflexivity]. eexists. split; [reflexivity|]. split; [reflexivity|]. split; [reflexivity|]. apply (aput_same _ zspec).
Qed.
(** Without rollback data nothing is kept; in Solidity empty data is none, in Java it is some. *)
Theorem C111_one_way : forall java s to data sn, exec java (XCalls (XSend to data None (Some sn)) []) s = Some (Dapp (x_last s) (x_rb s) (XSent to data [] :: x_log s)) /\
  exec false (XCalls (XSend to data (Some []) (Some sn)) []) s = Some (Dapp (x_last s) (x_rb s) (XSent to data [] :: x_log s)) /\
  exists s', exec true (XCalls (XSend to data (Some []) (Some sn)) []) s = Some s' /\ aget Z.eqb (x_last s + 1) (x_rb s') = Some ([], sn).
Proof. intros java s to data sn. split; [reflexivity|]. split; [reflexivity|]. eexists. split; [reflexivity|]. apply (aput_same _ zspec). Qed.
(** Rollback data that comes back before the call service has answered is refused. *)
Theorem C111_early : forall l data r nested, let s := run true l in dec data = Some (x_last s + 1, r) ->
  exec true (XCalls (XHandle svc own data) nested) s = None.
Proof.
  intros l data r nested s D. destruct (good_always true svc own enc dec H l) as [G1 G2 G3 G4 G5 G6]. fold s in G1, G2, G3, G4, G5, G6.
  cbn [xexec]. unfold handle. rewrite bytes_eqb_refl. cbn [negb]. rewrite same_refl, D, G2.
  destruct (waiting (x_last s + 1) (x_log s)) as [[r' sn]|] eqn:W; [|reflexivity]. exfalso.
  destruct (waiting_stored _ _ _ _ W) as (a & b & E & _). assert (I : In (x_last s + 1) ([] ++ stored_ids (x_log s))) by (cbn [app]; rewrite E, stored_ids_app; apply in_app_iff; right; left; reflexivity).
  apply G4 in I. lia.
Qed.
(** In Solidity the call service can bring back empty data under any id that has none, as often as it likes. *)
Theorem C111_unknown_refuted : forall s id data nested, aget Z.eqb id (x_rb s) = None -> dec data = Some (id, []) ->
  exec false (XCalls (XHandle svc own data) nested) s = Some (Dapp (x_last s) (x_rb s) (XBack id own 0 [] :: x_log s)) /\ exec true (XCalls (XHandle svc own data) nested) s = None.
Proof. intros s id data nested A D. cbn [xexec]. unfold handle. rewrite bytes_eqb_refl. cbn [negb]. rewrite !same_refl, D, A, same_refl. split; reflexivity. Qed.
End C111.
Print Assumptions C111_waiting.
Print Assumptions C111_back_java.
Print Assumptions C111_once_java.
Print Assumptions C111_back_solidity.
Print Assumptions C111_messages.
Print Assumptions C111_accepts.
Print Assumptions C111_passes.
Print Assumptions C111_others.
Print Assumptions C111_sends.
Print Assumptions C111_one_way.
Print Assumptions C111_early.
Print Assumptions C111_unknown_refuted.

(** ** Examples *)
Local Definition enc1 (id : Z) (r : bytes) : bytes := id :: r.
Local Definition dec1 (b : bytes) : option (Z * bytes) := match b with [] => None | i :: r => Some (i, r) end.
Local Definition svc1 : bytes := [1; 7].
Local Definition own1 : bytes := [98; 58].
(** The call service sends once more before it answers; the first data comes back, the second not. *)
Local Definition hist1 : list xtree := [
  XCalls (XSend [5] [6] (Some [11]) (Some 40)) [XCalls (XSend [5] [6] (Some [12]) (Some 41)) []; XCalls (XHandle svc1 own1 (enc1 1 [11])) []];
  XCalls (XHandle svc1 own1 (enc1 1 [11])) []; XCalls (XHandle svc1 own1 (enc1 1 [11])) []; XCalls (XHandle svc1 [3] [4]) []; XCalls (XHandle [0] own1 (enc1 2 [12])) []].
Example C111_ex : forall java, let s := xtrees java svc1 own1 enc1 dec1 (fun b => b) dapp_installed hist1 in
  x_log s = [XMessage [3] [4]; XBack 1 own1 40 [11]; XStored 1 [11] 40; XStored 2 [12] 41; XSent [5] [6] [2; 12]; XSent [5] [6] [1; 11]] /\ x_rb s = [(2, ([12], 41))] /\ waiting 2 (x_log s) = Some ([12], 41) /\ dec1 (enc1 2 [12]) = Some (2, [12]).
Proof. intros [|]; vm_compute; repeat split. Qed.
