(** Native coin services on several networks: runs, what is carried out, what the coins cover. *)
From Coq Require Import ZArith List Bool Lia Permutation.
From Coq Require Import ZifyBool.
From Verif Require Import Base L_Base M_JMap L_JMap M_JBmc L_JBmc L_JSum M_Ncs S_Ncs L_Ncs L_Ncs2 L_Ncs3 M_NcsNet S_NcsNet L_NcsNet.
Import ListNotations.
Open Scope Z_scope.

Lemma sum_le : forall {A} (f g : A -> Z) l, (forall x, In x l -> f x <= g x) -> sumOf f l <= sumOf g l.
Proof. intros A f g. induction l as [|x l IH]; intros H; [reflexivity|]. rewrite !sum_cons. pose proof (H x (or_introl eq_refl)). specialize (IH (fun y Y => H y (or_intror Y))). lia. Qed.
Lemma sum_incl : forall {A} (f : A -> Z) l m, NoDup l -> incl l m -> (forall x, In x m -> 0 <= f x) -> sumOf f l <= sumOf f m.
Proof.
  intros A f. induction l as [|x l IH]; intros m HN HI HP; [cbn [sumOf fold_right]; apply sum_nonneg, HP|]. apply NoDup_cons_iff in HN as [NI HN].
  destruct (in_split x m (HI x (or_introl eq_refl))) as (a & b & ->). rewrite sum_cons, sum_app, sum_cons.
  assert (L : sumOf f l <= sumOf f (a ++ b)).
  { apply IH; [exact HN| |].
    - intros y Hy. specialize (HI y (or_intror Hy)). apply in_app_or in HI as [HI|[->|HI]]; [apply in_or_app; left; exact HI|contradiction|apply in_or_app; right; exact HI].
    - intros y Hy. apply HP. apply in_app_or in Hy as [Hy|Hy]; apply in_or_app; [left|right; right]; exact Hy. }
  rewrite sum_app in L. lia.
Qed.
Lemma sum_flat : forall {A B} (f : B -> Z) (g : A -> list B) l, sumOf f (flat_map g l) = sumOf (fun x => sumOf f (g x)) l.
Proof. intros A B f g. induction l as [|x l IH]; [reflexivity|]. cbn [flat_map]. rewrite sum_app, sum_cons, IH. reflexivity. Qed.
Lemma sum_map : forall {A B} (f : B -> Z) (g : A -> B) l, sumOf f (map g l) = sumOf (fun x => f (g x)) l.
Proof. intros A B f g. induction l as [|x l IH]; [reflexivity|]. cbn [map]. rewrite !sum_cons, IH. reflexivity. Qed.
Lemma sum_pick : forall (f : Z -> Z) h nets, NoDup nets -> In h nets -> sumOf f nets = f h + sumOf (fun n => if n =? h then 0 else f n) nets.
Proof.
  intros f h. induction nets as [|m nets IH]; intros HN HI; [destruct HI|]. apply NoDup_cons_iff in HN as [NI HN]. rewrite !sum_cons. destruct (Z.eq_dec m h) as [->|N].
  - rewrite Z.eqb_refl. rewrite (sum_ext (fun n => if n =? h then 0 else f n) f nets); [lia|]. intros k HK. replace (k =? h) with false; [reflexivity|]. symmetry. apply Z.eqb_neq. intros ->. contradiction.
  - destruct HI as [X|HI]; [congruence|]. rewrite (IH HN HI). replace (m =? h) with false by lia. lia.
Qed.

Section NET.
Variable nets : list Z.
Variables selfs names bmcs deployers : Z -> Z.
Variable tid : Z -> Z.
Hypothesis ND : NoDup nets.
Hypothesis TI : forall a b, tid a = tid b -> a = b.
Hypothesis BS : forall n, bmcs n <> selfs n.
Variable once : bool.
Local Notation winv := (winv nets selfs names tid once).
Local Notation wexec := (wexec nets selfs names bmcs deployers tid).
Local Notation wrun := (wrun nets selfs names bmcs deployers tid).
Local Notation nx := (M_NcsNet.nx selfs names bmcs deployers tid).

Lemma winv_init : winv winit.
Proof using.
  split; cbn [winit w_st w_fly].
  - intros n _. apply ninv_init.
  - intros i [].
  - constructor.
  - intros n sn t _ E. discriminate.
  - intros c. unfold vtotal, answered_under_way. cbn [winit w_st w_fly sumOf fold_right]. rewrite sum_zero; [lia|]. intros n _. unfold V. destruct (names n =? c); reflexivity.
  - intros _. split; [|intros n sn t _ E; discriminate]. intros c. unfold vtotal, answered_under_way. cbn [winit w_st w_fly sumOf fold_right]. apply sum_zero. intros n _. unfold V. destruct (names n =? c); reflexivity.
Qed.
Lemma wrun_snoc : forall l o, wrun (l ++ [o]) = wstep nets selfs names bmcs deployers tid (wrun l) o.
Proof using. intros. unfold M_NcsNet.wrun. rewrite fold_left_app. reflexivity. Qed.
Lemma winv_run : forall l, answered_run l -> (once = true -> Forall names_once l) -> winv (wrun l).
Proof using ND TI BS.
  intros l. induction l as [|o l IH] using rev_ind; intros HA HO; [apply winv_init|]. apply Forall_app in HA as [HA HA1]. apply Forall_inv in HA1. rewrite wrun_snoc. unfold wstep.
  assert (W : winv (wrun l)) by (apply IH; [exact HA|intros O; specialize (HO O); apply Forall_app in HO as [HO _]; exact HO]).
  destruct (wexec (wrun l) o) as [w'|] eqn:E; [|exact W]. eapply winv_step; try eassumption. intros O. specialize (HO O). apply Forall_app in HO as [_ HO]. apply Forall_inv in HO. exact HO.
Qed.

(** * What the coins cover *)
Lemma V_other : forall n s c, names n <> c -> ninv (selfs n) (names n) tid s -> V names tid n s c = tokens s (tid c) /\ txsum (n_tx s) c <= tokens s (tid c).
Proof using.
  intros n s c N I. pose proof (i_tok _ _ _ _ I) as T. unfold V. replace (names n =? c) with false by lia. split; [symmetry; apply (ti_sum _ T)|].
  pose proof (i_cover _ _ _ _ I c ltac:(congruence)) as C. rewrite <- (i_lsum _ _ _ _ I).
  assert (R : 0 <= rsum (n_bal s) c). { pose proof (bal_nonneg _ _ _ s I c 0). lia. }
  pose proof (i_fee _ _ _ _ I c).
  assert (G : gett (n_tok s) (tid c) (selfs n) <= tokens s (tid c)).
  { unfold gett. destruct (aget zz_eqb (tid c, selfs n) (n_tok s)) as [v|] eqn:EG.
    - apply (aget_in _ zz_key) in EG. assert (PP : forall y, In y (n_tok s) -> 0 <= (if fst (fst y) =? tid c then snd y else 0)).
      { intros [[i a] v'] HI. cbn [fst snd]. destruct (i =? tid c); [|lia]. pose proof (ti_pos _ T i a) as P. unfold gett in P. rewrite (aget_unique _ zz_key _ _ _ (ti_nd _ T) HI) in P. exact P. }
      pose proof (sum_ge _ (n_tok s) _ PP EG) as GE. cbn [fst snd] in GE. rewrite Z.eqb_refl in GE. exact GE.
    - apply sum_nonneg. intros [[i a] v'] HI. cbn [fst snd]. destruct (i =? tid c); [|lia]. pose proof (ti_pos _ T i a) as P. unfold gett in P. rewrite (aget_unique _ zz_key _ _ _ (ti_nd _ T) HI) in P. exact P. }
  lia.
Qed.
Lemma vtotal_home : forall w h, winv w -> In h nets -> (forall n, In n nets -> names n = names h -> n = h) ->
  vtotal nets names tid w (names h) = owes w h (names h) - n_coins (w_st w h) + abroad nets tid w h (names h).
Proof using ND.
  intros w h W HI U. unfold vtotal. rewrite (sum_pick _ h nets ND HI). unfold V at 1. rewrite Z.eqb_refl. unfold owes, abroad.
  assert (E : sumOf (fun n => if n =? h then 0 else V names tid n (w_st w n) (names h)) nets = sumOf (fun n => if n =? h then 0 else tokens (w_st w n) (tid (names h))) nets).
  { apply sum_ext. intros n HN. destruct (Z.eq_dec n h) as [->|N]; [rewrite Z.eqb_refl; reflexivity|]. replace (n =? h) with false by lia. apply V_other; [intros X; apply N, U; assumption|apply (wi_n _ _ _ _ _ _ W), HN]. }
  rewrite E. unfold lockedSum, refundSum, lsum, rsum, getFee, getf. lia.
Qed.
Lemma fly_sum : forall w c, winv w -> sumOf (fun i => net_of c (pending_details w (transfer_of i))) (w_fly w) <= sumOf (fun n => txsum (n_tx (w_st w n)) c) nets.
Proof using.
  intros w c W. rewrite <- (sum_map (fun p => net_of c (pending_details w p)) transfer_of).
  assert (P : forall n x, In n nets -> In x (n_tx (w_st w n)) -> pending_details w (n, fst x) = t_assets (snd x) /\ (forall k, 0 <= net_of k (t_assets (snd x)) /\ 0 <= fee_of k (t_assets (snd x)))).
  { intros n [sn t] HN HX. cbn [fst snd]. pose proof (wi_n _ _ _ _ _ _ W n HN) as I. pose proof (aget_unique _ z_key _ _ _ (i_nd _ _ _ _ I) HX) as G. unfold pending_details. cbn [fst snd]. rewrite G. split; [reflexivity|]. destruct (i_tx _ _ _ _ I _ _ G) as (_ & D & _). apply (details_nonneg _ _ _ D). }
  transitivity (sumOf (fun p => net_of c (pending_details w p)) (flat_map (fun n => map (fun x => (n, fst x)) (n_tx (w_st w n))) nets)).
  - apply sum_incl; [apply (wi_nd _ _ _ _ _ _ W)| |].
    + intros p HP. apply in_map_iff in HP as (i & <- & HI). destruct (wi_it _ _ _ _ _ _ W i HI) as (HN & t & G & _). apply in_flat_map. exists (fst (transfer_of i)). split; [exact HN|]. apply in_map_iff. exists (snd (transfer_of i), t). split; [destruct (transfer_of i); reflexivity|]. apply (aget_in _ z_key). exact G.
    + intros p HP. apply in_flat_map in HP as (n & HN & HP). apply in_map_iff in HP as (x & <- & HX). destruct (P n x HN HX) as [-> Q]. apply Q.
  - rewrite sum_flat. apply sum_le. intros n HN. rewrite sum_map. apply sum_le. intros x HX. destruct (P n x HN HX) as [-> Q]. rewrite value_split. specialize (Q c). lia.
Qed.
(** the coins of the home cover refunds, fees and any request under way *)
Lemma covered : forall w h i, winv w -> In h nets -> (forall n, In n nets -> names n = names h -> n = h) ->
  refundSum (w_st w h) (names h) + getFee (w_st w h) (names h) <= n_coins (w_st w h)
  /\ (In i (w_fly w) -> is_ok i = false -> refundSum (w_st w h) (names h) + getFee (w_st w h) (names h) + net_of (names h) (pending_details w (transfer_of i)) <= n_coins (w_st w h)).
Proof using ND.
  intros w h i W HI U. pose proof (vtotal_home w h W HI U) as VH. pose proof (wi_le _ _ _ _ _ _ W (names h)) as LE. pose proof (fly_sum w (names h) W) as FS.
  rewrite (sum_pick _ h nets ND HI) in FS.
  assert (AB : sumOf (fun n => if n =? h then 0 else txsum (n_tx (w_st w n)) (names h)) nets <= abroad nets tid w h (names h)).
  { apply sum_le. intros n HN. destruct (Z.eqb_spec n h) as [->|N]; [lia|]. apply (V_other n (w_st w n) (names h)); [intros X; apply N, U; assumption|apply (wi_n _ _ _ _ _ _ W), HN]. }
  pose proof (wi_n _ _ _ _ _ _ W h HI) as I. pose proof (i_lsum _ _ _ _ I (names h)) as LS.
  assert (NN : forall j, In j (w_fly w) -> 0 <= net_of (names h) (pending_details w (transfer_of j))).
  { intros j Hj. destruct (wi_it _ _ _ _ _ _ W j Hj) as (HN & t & G & _). unfold pending_details. rewrite G. destruct (i_tx _ _ _ _ (wi_n _ _ _ _ _ _ W _ HN) _ _ G) as (_ & D & _). apply (details_nonneg _ _ _ D). }
  unfold owes, lockedSum, refundSum in *. unfold lsum in LS.
  assert (AU : answered_under_way w (names h) <= sumOf (fun i => net_of (names h) (pending_details w (transfer_of i))) (w_fly w)).
  { apply sum_le. intros j Hj. specialize (NN j Hj). destruct (is_ok j); lia. }
  split; [lia|]. intros Hi OK.
  assert (AU2 : answered_under_way w (names h) + net_of (names h) (pending_details w (transfer_of i)) <= sumOf (fun i => net_of (names h) (pending_details w (transfer_of i))) (w_fly w)).
  { unfold answered_under_way. destruct (in_split _ _ Hi) as (a & b & EQ). rewrite EQ in NN |- *. rewrite !sum_app, !sum_cons, OK.
    assert (L1 : forall m, (forall j, In j m -> 0 <= net_of (names h) (pending_details w (transfer_of j))) -> sumOf (fun j => if is_ok j then net_of (names h) (pending_details w (transfer_of j)) else 0) m <= sumOf (fun j => net_of (names h) (pending_details w (transfer_of j))) m).
    { intros m HM. apply sum_le. intros j Hj. specialize (HM j Hj). destruct (is_ok j); lia. }
    pose proof (L1 a (fun j Hj => NN j (in_or_app _ _ _ (or_introl Hj)))). pose proof (L1 b (fun j Hj => NN j (in_or_app _ (i :: b) _ (or_intror (or_intror Hj))))). lia. }
  lia.
Qed.

(** * What a step does to the events *)
Definition silent (e : nout) : Prop := match e with NSend _ _ (BResponse _) | NEnd _ _ _ | NStart _ _ _ _ => False | _ => True end.
Definition kind (w w' : world) (m : Z) (q : list nout) : Prop :=
  (w_fly w' = w_fly w /\ Forall silent q)
  \/ (exists it e ev, w_fly w' = w_fly w ++ [it] /\ is_ok it = false /\ q = [e; ev] /\ silent e /\ match ev with NStart _ _ sn _ => transfer_of it = (m, sn) | _ => False end)
  \/ (exists k src sn a l pay, nth_error (w_fly w) k = Some (IMsg src sn m (BRequest a l)) /\ w_fly w' = without k (w_fly w) ++ [IMsg m sn src (BResponse RC_OK)] /\ q = pay ++ [NSend src sn (BResponse RC_OK)] /\ Forall silent pay)
  \/ (exists k i o sn code, nth_error (w_fly w) k = Some i /\ transfer_of i = (m, sn) /\ (is_ok i = true <-> code = RC_OK) /\ w_fly w' = without k (w_fly w) /\ q = [NEnd o sn code])
  \/ (exists k src sn dst a l, nth_error (w_fly w) k = Some (IMsg src sn dst (BRequest a l)) /\ w_fly w' = without k (w_fly w) ++ [IErr src sn] /\ q = []).
Lemma step_kind : forall w o w', winv w -> answers_arrive o -> wexec w o = Some w' -> exists m s' q, In m nets /\ (forall k, w_st w' k = upd (w_st w) m s' k) /\ n_out s' = n_out (w_st w m) ++ q /\ kind w w' m q.
Proof using TI BS.
  intros w o w' W HA E. destruct o as [n x o|k x|k|k]; cbn [M_NcsNet.wexec] in E; [| | |contradiction].
  - unfold need in E. destruct (mem n nets && negb (ncaller o =? bmcs n) && negb (ncaller o =? selfs n)) eqn:EM; [|discriminate]. rewrite !andb_true_iff in EM. destruct EM as [[EM1 EM2] EM3]. apply mem_in in EM1. assert (NB : ncaller o <> bmcs n) by lia. assert (NS : ncaller o <> selfs n) by lia.
    destruct (nx n (w_st w n) x o) as [s'|] eqn:EX; [|discriminate]. cbn [nbind] in E. injection E as <-. pose proof (wi_n _ _ _ _ _ _ W n EM1) as I.
    assert (EF : effect (selfs n) (names n) (bmcs n) tid (w_st w n) o s') by (eapply nexec_effect; [exact TI|intros sn t X; apply (i_tx _ _ _ _ I sn t X)|exact NS|exact EX]).
    destruct EF as [o s' _ Q|o owner to l ds s' HM Q|o sn t code s' HM Q|from sn a l nv ms s' Q|c c0 v s' Q].
    + destruct Q as [_ _ (q & Q2 & QP) _ _ _ _ _ _ _ _ _]. exists n, s', q. split; [exact EM1|]. split; [intros; reflexivity|]. split; [exact Q2|]. left. unfold wput. cbn [w_fly]. rewrite Q2, sent_app, (sent_quiet n q QP). split; [apply app_nil_r|]. apply Forall_forall. intros e He. specialize (QP e He). destruct e; try contradiction; [destruct b; try contradiction|]; exact Logic.I.
    + destruct Q. exists n, s'. eexists. split; [exact EM1|]. split; [intros; reflexivity|]. split; [exact es_out|]. right. left. do 3 eexists. unfold wput. cbn [w_fly]. rewrite es_out, sent_app. split; [reflexivity|]. split; [reflexivity|]. split; [reflexivity|]. split; [exact Logic.I|reflexivity].
    + exfalso. apply NB. destruct o; try contradiction; cbn [ncaller]; try (destruct b as [[]|]; try contradiction); tauto.
    + exfalso. apply NB. reflexivity.
    + destruct Q. exists n, s'. eexists. split; [exact EM1|]. split; [intros; reflexivity|]. split; [exact ec_out|]. left. unfold wput. cbn [w_fly]. rewrite ec_out, sent_app. split; [apply app_nil_r|]. repeat constructor.
  - destruct (nth_error (w_fly w) k) as [i|] eqn:EK; [|discriminate]. pose proof (wi_it _ _ _ _ _ w W i (nth_error_In _ _ EK)) as (BI & t0 & BT & BG). destruct i as [src sn dst b|dst sn].
    + unfold need in E. destruct (mem dst nets) eqn:EM; [|discriminate]. apply mem_in in EM. destruct (nx dst (w_st w dst) x (HandleMessage (bmcs dst) src sn (Some b))) as [s'|] eqn:EX; [|discriminate]. cbn [nbind] in E. injection E as <-. pose proof (wi_n _ _ _ _ _ w W dst EM) as I.
      destruct b as [a l|code| |]; try (destruct BG; fail).
      * unfold M_NcsNet.nx in EX. cbn [nexec] in EX. unfold need in EX. rewrite Z.eqb_refl in EX. cbn [nbind] in EX. apply (handleRequest_spec _ _ TI) in EX as (a0 & l0 & nv & ms & -> & -> & Q). destruct Q.
        exists dst, s'. eexists. split; [exact EM|]. split; [intros; reflexivity|]. split; [exact er_out|]. right. right. left. exists k, src, sn, (Some a0), (Some l0), (match nv with Some v => [NPay a0 v] | None => [] end). split; [exact EK|]. unfold wput. cbn [w_fly]. rewrite er_out, sent_app. split; [destruct nv; reflexivity|]. split; [reflexivity|]. destruct nv; repeat constructor.
      * cbn [transfer_of fst snd] in BI, BT. unfold good in BG. subst code.
        unfold M_NcsNet.nx in EX. cbn [nexec] in EX. unfold need in EX. rewrite Z.eqb_refl in EX. cbn [nbind] in EX. apply (handleResponse_spec _ _ _ TI) in EX as [[_ X]|(t & Q)]; [congruence| |intros t X; apply (i_tx _ _ _ _ I _ _ X)].
        destruct Q. exists dst, s'. eexists. split; [exact EM|]. split; [intros; reflexivity|]. split; [exact ee_out|]. right. right. right. left. do 5 eexists. split; [exact EK|]. split; [reflexivity|]. split; [cbn [is_ok]; split; [intros _; reflexivity|reflexivity]|]. unfold wput. cbn [w_fly]. rewrite ee_out, sent_app. split; [apply app_nil_r|reflexivity].
    + unfold need in E. destruct (mem dst nets) eqn:EM; [|discriminate]. apply mem_in in EM. destruct (nx dst (w_st w dst) x (HandleError (bmcs dst) sn)) as [s'|] eqn:EX; [|discriminate]. cbn [nbind] in E. injection E as <-. pose proof (wi_n _ _ _ _ _ w W dst EM) as I. cbn [transfer_of fst snd] in BI, BT.
      unfold M_NcsNet.nx in EX. cbn [nexec] in EX. unfold need in EX. rewrite Z.eqb_refl in EX. apply (handleResponse_spec _ _ _ TI) in EX as [[_ X]|(t & Q)]; [congruence| |intros t X; apply (i_tx _ _ _ _ I _ _ X)].
      destruct Q. exists dst, s'. eexists. split; [exact EM|]. split; [intros; reflexivity|]. split; [exact ee_out|]. right. right. right. left. exists k, (IErr dst sn), (t_from t), sn, RC_ERR. split; [exact EK|]. split; [reflexivity|]. split; [cbn [is_ok]; split; discriminate|]. unfold wput. cbn [w_fly]. rewrite ee_out, sent_app. split; [apply app_nil_r|reflexivity].
  - destruct (nth_error (w_fly w) k) as [i|] eqn:EK; [|discriminate]. destruct i as [src sn dst b|dst sn]; [|discriminate]. destruct b as [a l| | |]; try discriminate. injection E as <-.
    pose proof (wi_it _ _ _ _ _ w W _ (nth_error_In _ _ EK)) as (BI & t0 & BT & BG). cbn [transfer_of fst snd] in BI, BT.
    exists src, (w_st w src), []. split; [exact BI|]. split; [intros n; cbn [w_st]; unfold upd; destruct (Z.eqb_spec n src) as [->|N]; reflexivity|]. split; [rewrite app_nil_r; reflexivity|]. right. right. right. right. do 6 eexists. split; [exact EK|]. split; reflexivity.
Qed.

(** * What is carried out *)
Definition okends (log : list nout) (sn : Z) : Z := sumOf (fun e => match e with NEnd _ k code => if (k =? sn) && (code =? RC_OK) then 1 else 0 | _ => 0 end) log.
Definition okfly (w : world) (n sn : Z) : Z := sumOf (fun i => if is_ok i && zz_eqb (transfer_of i) (n, sn) then 1 else 0) (w_fly w).
Definition okout (log : list nout) (n sn : Z) : Z := sumOf (fun e => match e with NSend to k (BResponse code) => if (to =? n) && (k =? sn) && (code =? RC_OK) then 1 else 0 | _ => 0 end) log.
Record wcar (w : world) : Prop := WCar {
  wc_n : forall n sn, In n nets -> carried nets w n sn = okfly w n sn + okends (n_out (w_st w n)) sn;
  wc_to : forall d n sn c, In d nets -> In n nets -> In (NSend n sn (BResponse c)) (n_out (w_st w d)) -> exists o to ds, started_as sn (n_out (w_st w n)) = Some (o, to, ds) /\ b_net to = d }.
Lemma silent_out : forall q n sn, Forall silent q -> okout q n sn = 0 /\ okends q sn = 0 /\ forall c, ~ In (NSend n sn (BResponse c)) q.
Proof using.
  intros q n sn F. rewrite Forall_forall in F. split; [|split].
  - apply sum_zero. intros e He. specialize (F e He). destruct e; try reflexivity. destruct b; try reflexivity. destruct F.
  - apply sum_zero. intros e He. specialize (F e He). destruct e; try reflexivity. destruct F.
  - intros c HI. apply (F _ HI).
Qed.
Lemma wcar_step : forall w o w', winv w -> winv w' -> wcar w -> answers_arrive o -> wexec w o = Some w' -> wcar w'.
Proof using ND TI BS.
  intros w o w' W W' [C1 C2] HA E. destruct (step_kind w o w' W HA E) as (m & s' & q & HM & ST & OU & K).
  assert (CR : forall n sn, carried nets w' n sn = carried nets w n sn + okout q n sn).
  { intros n sn. unfold carried. rewrite (sum_ext (fun d => carried_at w' d n sn) (fun d => okout (n_out (upd (w_st w) m s' d)) n sn)) by (intros d _; unfold carried_at; rewrite ST; reflexivity).
    rewrite (sum_upd (fun _ s => okout (n_out s) n sn) (w_st w) m s' nets ND HM). rewrite OU. unfold okout at 2. rewrite sum_app. fold (okout (n_out (w_st w m)) n sn). fold (okout q n sn). unfold carried_at, okout. lia. }
  assert (EN : forall n sn, okends (n_out (w_st w' n)) sn = okends (n_out (w_st w n)) sn + (if n =? m then okends q sn else 0)).
  { intros n sn. rewrite ST. destruct (Z.eq_dec n m) as [->|N]; [rewrite upd_same, Z.eqb_refl, OU; unfold okends; apply sum_app|rewrite upd_other by exact N; replace (n =? m) with false by lia; lia]. }
  assert (SA : forall n sn r, started_as sn (n_out (w_st w n)) = Some r -> started_as sn (n_out (w_st w' n)) = Some r).
  { intros n sn r H. rewrite ST. destruct (Z.eq_dec n m) as [->|N]; [rewrite upd_same, OU, started_app, H; reflexivity|rewrite upd_other by exact N; exact H]. }
  assert (TO : forall d n sn c, In d nets -> In n nets -> In (NSend n sn (BResponse c)) (n_out (w_st w' d)) -> (d = m /\ In (NSend n sn (BResponse c)) q) \/ exists o to ds, started_as sn (n_out (w_st w' n)) = Some (o, to, ds) /\ b_net to = d).
  { intros d n sn c HD HN HI. rewrite ST in HI. destruct (Z.eq_dec d m) as [->|N].
    - rewrite upd_same, OU in HI. apply in_app_or in HI as [HI|HI]; [|left; split; [reflexivity|exact HI]]. right. destruct (C2 _ _ _ _ HD HN HI) as (o' & to & ds & A & B). exists o', to, ds. split; [apply SA, A|exact B].
    - rewrite upd_other in HI by exact N. right. destruct (C2 _ _ _ _ HD HN HI) as (o' & to & ds & A & B). exists o', to, ds. split; [apply SA, A|exact B]. }
  destruct K as [(F & Q)|[(it & e & ev & F & IO & -> & SI & EV)|[(k & src & sn0 & a & l & pay & EK & F & -> & SP)|[(k & i & ow & sn0 & code & EK & TR & OK & F & ->)|(k & src & sn0 & dst & a & l & EK & F & ->)]]]].
  - split.
    + intros n sn HN. destruct (silent_out q n sn Q) as (S1 & S2 & _). rewrite CR, EN, S1, S2, (C1 n sn HN). unfold okfly. rewrite F. destruct (n =? m); lia.
    + intros d n sn c HD HN HI. destruct (TO d n sn c HD HN HI) as [[_ X]|X]; [|exact X]. exfalso. apply (proj2 (proj2 (silent_out q n sn Q)) c X).
  - assert (OO : forall n sn, okout [e; ev] n sn = 0 /\ okends [e; ev] sn = 0 /\ forall c, ~ In (NSend n sn (BResponse c)) [e; ev]).
    { intros n sn. destruct (silent_out [e] n sn (Forall_cons _ SI (Forall_nil _))) as (S1 & S2 & S3). destruct ev; try contradiction. change ([e; NStart owner to sn0 l]) with ([e] ++ [NStart owner to sn0 l]). unfold okout, okends in *. rewrite !sum_app. split; [rewrite S1; reflexivity|]. split; [rewrite S2; reflexivity|]. intros c HI. apply in_app_or in HI as [HI|[HI|[]]]; [apply (S3 c HI)|discriminate]. }
    split.
    + intros n sn HN. destruct (OO n sn) as (S1 & S2 & _). rewrite CR, EN, S1, S2, (C1 n sn HN). unfold okfly. rewrite F, sum_app, sum_cons, IO. cbn [andb sumOf fold_right]. destruct (n =? m); lia.
    + intros d n sn c HD HN HI. destruct (TO d n sn c HD HN HI) as [[_ X]|X]; [|exact X]. exfalso. apply (proj2 (proj2 (OO n sn)) c X).
  - assert (OF : forall n sn, okfly w' n sn = okfly w n sn + (if zz_eqb (src, sn0) (n, sn) then 1 else 0)).
    { intros n sn. unfold okfly. rewrite F, sum_app, (sum_perm _ _ _ (without_perm k (w_fly w) _ EK)), !sum_cons. cbn [is_ok andb transfer_of sumOf fold_right]. lia. }
    split.
    + intros n sn HN. destruct (silent_out pay n sn SP) as (S1 & S2 & _). rewrite CR, EN, OF, (C1 n sn HN). unfold okout, okends in *. rewrite !sum_app, S1, S2, !sum_cons. cbn [sumOf fold_right]. unfold zz_eqb. cbn [fst snd]. rewrite Z.eqb_refl, andb_true_r. destruct (n =? m); lia.
    + intros d n sn c HD HN HI. destruct (TO d n sn c HD HN HI) as [[-> X]|X]; [|exact X]. apply in_app_or in X as [X|[X|[]]]; [exfalso; apply (proj2 (proj2 (silent_out pay n sn SP)) c X)|]. injection X as <- <- <-.
      destruct (wi_it _ _ _ _ _ w W _ (nth_error_In _ _ EK)) as (BI & t0 & BT & BG). cbn [transfer_of fst snd] in BI, BT. destruct BG as (B1 & _). destruct (i_tx _ _ _ _ (wi_n _ _ _ _ _ w W src BI) _ _ BT) as (_ & _ & _ & SD). exists (t_from t0), (t_to t0), (t_assets t0). split; [apply SA, SD|congruence].
  - split.
    + intros n sn HN. rewrite CR, EN, (C1 n sn HN). unfold okfly. rewrite F, (sum_perm _ _ _ (without_perm k (w_fly w) _ EK)), sum_cons, TR. unfold okout, okends. rewrite !sum_cons. cbn [sumOf fold_right]. unfold zz_eqb. cbn [fst snd].
      assert (OB : is_ok i = (code =? RC_OK)) by (destruct (is_ok i), (Z.eqb_spec code RC_OK); try reflexivity; [exfalso; tauto|exfalso; destruct OK as [_ OK]; specialize (OK e); discriminate]).
      rewrite OB. replace (m =? n) with (n =? m) by lia. destruct (n =? m), (sn0 =? sn), (code =? RC_OK); cbn [andb]; lia.
    + intros d n sn c HD HN HI. destruct (TO d n sn c HD HN HI) as [[_ [X|[]]]|X]; [discriminate|exact X].
  - split.
    + intros n sn HN. rewrite CR, EN, (C1 n sn HN). unfold okfly. rewrite F, sum_app, (sum_perm _ _ _ (without_perm k (w_fly w) _ EK)), !sum_cons. cbn [is_ok andb okout okends sumOf fold_right]. destruct (n =? m); lia.
    + intros d n sn c HD HN HI. destruct (TO d n sn c HD HN HI) as [[_ []]|X]. exact X.
Qed.
Lemma wcar_run : forall l, answered_run l -> (once = true -> Forall names_once l) -> wcar (wrun l).
Proof using ND TI BS.
  intros l. induction l as [|o l IH] using rev_ind; intros HA HO.
  - split; [|intros d n sn c _ _ []]. intros n sn _. unfold carried. rewrite sum_zero; [reflexivity|]. intros d _. reflexivity.
  - pose proof (winv_run _ HA HO) as W'. apply Forall_app in HA as [HA HA1]. apply Forall_inv in HA1. assert (HO' : once = true -> Forall names_once l) by (intros O; specialize (HO O); apply Forall_app in HO as [HO _]; exact HO).
    rewrite wrun_snoc in W' |- *. unfold wstep in *. destruct (wexec (wrun l) o) as [w'|] eqn:E; [|apply IH; [exact HA|exact HO']]. eapply wcar_step; [apply winv_run; [exact HA|exact HO']|exact W'|apply IH; [exact HA|exact HO']|exact HA1|exact E].
Qed.
Lemma okends_one : forall log o sn code, ends sn log = 1 -> In (NEnd o sn code) log -> okends log sn = if code =? RC_OK then 1 else 0.
Proof using.
  intros log o sn code E HI. set (f := fun e => match e with NEnd _ k c => if (k =? sn) && negb (c =? RC_OK) then 1 else 0 | _ => 0 end).
  assert (S : ends sn log = okends log sn + sumOf f log). { clear. unfold ends, okends. induction log as [|e log IH]; [reflexivity|]. rewrite !sum_cons, IH. destruct e; cbn [f]; try lia. destruct (sn0 =? sn), (code =? RC_OK); cbn [andb negb]; lia. }
  assert (P1 : forall e, In e log -> 0 <= match e with NEnd _ k c => if (k =? sn) && (c =? RC_OK) then 1 else 0 | _ => 0 end) by (intros e _; destruct e; try lia; destruct ((sn0 =? sn) && (code0 =? RC_OK)); lia).
  assert (P2 : forall e, In e log -> 0 <= f e) by (intros e _; destruct e; cbn [f]; try lia; destruct ((sn0 =? sn) && negb (code0 =? RC_OK)); lia).
  pose proof (sum_ge _ _ _ P1 HI) as G1. pose proof (sum_ge _ _ _ P2 HI) as G2. pose proof (sum_nonneg _ _ P1) as N1. pose proof (sum_nonneg _ _ P2) as N2. fold (okends log sn) in *. unfold f in G2 at 1. cbv beta iota in G1, G2. rewrite Z.eqb_refl in G1, G2. unfold okends in *. destruct (code =? RC_OK); cbn [andb negb] in G1, G2; lia.
Qed.
End NET.
