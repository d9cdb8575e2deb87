(** Lemmas about many message centers: one message through all of them. *)
From Coq Require Import String Ascii ZArith List Bool Lia Permutation.
From Coq Require Import ZifyBool.
From Verif Require Import Base L_Base M_JMap L_JMap L_JSum M_JBmc S_JBmc L_JBmc T_JBmc T_JBmc2 X_JBmc T_JBmc3 L_NetW M_Net S_Net L_Net L_Net2 L_Net3.
Import ListNotations.
Open Scope Z_scope.

Lemma wsum_cons : forall {A} (w : A -> Z) x l, wsum w (x :: l) = w x + wsum w l.
Proof. reflexivity. Qed.
Lemma wsum_le : forall {A} (f g : A -> Z) l, (forall x, In x l -> f x <= g x) -> wsum f l <= wsum g l.
Proof. intros A f g l H. induction l as [|x l IH]; [apply Z.le_refl|]. rewrite !wsum_cons. specialize (IH (fun y hy => H y (or_intror hy))). specialize (H x (or_introl eq_refl)). lia. Qed.
Lemma wsum_sub : forall {A} (f g : A -> Z) l, wsum (fun x => f x - g x) l = wsum f l - wsum g l.
Proof. intros A f g l. induction l as [|x l IH]; [reflexivity|]. rewrite !wsum_cons. lia. Qed.
Lemma wsum_plus : forall {A} (f g : A -> Z) l, wsum (fun x => f x + g x) l = wsum f l + wsum g l.
Proof. intros A f g l. induction l as [|x l IH]; [reflexivity|]. rewrite !wsum_cons. lia. Qed.
Lemma wsum_ext : forall {A} (f g : A -> Z) l, (forall x, In x l -> f x = g x) -> wsum f l = wsum g l.
Proof. intros A f g l H. induction l as [|x l IH]; [reflexivity|]. rewrite !wsum_cons, (H x (or_introl eq_refl)), IH; [reflexivity|]. intros y hy. apply H. right. exact hy. Qed.
Lemma wsum_swap : forall {A B} (f : A -> B -> Z) la lb, wsum (fun a => wsum (fun b => f a b) lb) la = wsum (fun b => wsum (fun a => f a b) la) lb.
Proof.
  intros A B f la lb. induction la as [|a la IH]; [symmetry; apply wsum_zero; reflexivity|]. rewrite wsum_cons, IH, <- wsum_plus. apply wsum_ext. intros b _. rewrite wsum_cons. reflexivity.
Qed.
Lemma wsum_map : forall {A B} (f : B -> Z) (g : A -> B) l, wsum f (map g l) = wsum (fun x => f (g x)) l.
Proof. intros A B f g l. induction l as [|x l IH]; [reflexivity|]. cbn [map]. rewrite !wsum_cons, IH. reflexivity. Qed.
Lemma count_wsum : forall {A} (P : A -> bool) l, count P l = wsum (fun x => b2z (P x)) l.
Proof.
  intros A P l. unfold count, zlen. induction l as [|x l IH]; [reflexivity|]. rewrite wsum_cons. cbn [filter]. destruct (P x); cbn [length b2z]; lia.
Qed.
Lemma total_wsum : forall f nets, total f nets = wsum f nets.
Proof. reflexivity. Qed.
(** at most one entry of a list without repetitions is a given one *)
Lemma one_hit : forall (nets : list Z) k v, NoDup nets -> 0 <= v -> wsum (fun n => if n =? k then v else 0) nets <= v.
Proof.
  intros nets k v ND HV. induction ND as [|n l NI ND IH]; [exact HV|]. rewrite wsum_cons. destruct (Z.eqb_spec n k) as [->|N]; [|lia].
  assert (wsum (fun n => if n =? k then v else 0) l = 0); [|lia]. apply wsum_zero. intros x HX. replace (x =? k) with false; [reflexivity|]. symmetry. apply Z.eqb_neq. intros ->. contradiction.
Qed.
Lemma one_hit_in : forall (nets : list Z) k v, NoDup nets -> In k nets -> wsum (fun n => if n =? k then v else 0) nets = v.
Proof.
  intros nets k v ND HI. induction ND as [|n l NI ND IH]; [destruct HI|]. rewrite wsum_cons. destruct (Z.eqb_spec n k) as [->|N].
  - assert (wsum (fun n => if n =? k then v else 0) l = 0); [|lia]. apply wsum_zero. intros x HX. replace (x =? k) with false; [reflexivity|]. symmetry. apply Z.eqb_neq. intros ->. contradiction.
  - destruct HI as [E|HI]; [congruence|]. rewrite IH by exact HI. lia.
Qed.
(** what goes to all networks is part of what goes out *)
Lemma channels_le : forall acc f nets os, NoDup nets -> (forall m, 0 <= f m) -> wsum (fun n => wsum f (sent_msgs (me acc n) os)) nets <= wsum (on_sent f) os.
Proof.
  intros acc f nets os ND HF. induction os as [|o os IH].
  - cbn [sent_msgs wsum fold_right]. apply wsum_nonpos. intros; lia.
  - rewrite wsum_cons. destruct o; cbn [sent_msgs on_sent]; try (exact IH).
    apply Z.le_trans with (wsum (fun n => (if n =? a_net next then f m else 0) + wsum f (sent_msgs (me acc n) os)) nets).
    + apply wsum_le. intros n _. destruct (addr_eqb (me acc n) next) eqn:EA; [|pose proof (HF m); destruct (n =? a_net next); lia]. rewrite wsum_cons. apply addr_key in EA. subst next. cbn [me a_net]. rewrite Z.eqb_refl. lia.
    + rewrite wsum_plus. pose proof (one_hit nets (a_net next) (f m) ND (HF m)). lia.
Qed.
(** sorting by where it came from *)
Lemma by_origin : forall (g : msg -> Z) nets (l : list (Z * msg)), NoDup nets -> (forall p m, In (p, m) l -> In p nets) ->
  wsum (fun x => g (snd x)) l = wsum (fun p => wsum g (map snd (filter (fun x => fst x =? p) l))) nets.
Proof.
  intros g nets l ND. induction l as [|[p m] l IH]; intros H.
  - symmetry. apply wsum_zero. reflexivity.
  - rewrite wsum_cons, IH by (intros q x hx; apply (H q x); right; exact hx). cbn [snd].
    rewrite <- (one_hit_in nets p (g m) ND (H p m (or_introl eq_refl))), <- wsum_plus. apply wsum_ext. intros q _. cbn [filter fst].
    rewrite (Z.eqb_sym q p). destruct (p =? q); cbn [map snd]; [rewrite wsum_cons; reflexivity|lia].
Qed.
Lemma sendw_nonneg : forall id o, 0 <= sendw id o.
Proof. intros id [| ? ? ? e | | | | |]; cbn [sendw]; try lia. destruct e; try lia. apply b2z_range. Qed.
Lemma tok_nonneg : forall id m, 0 <= tok id m.
Proof. intros id m. apply b2z_range. Qed.
Lemma zseq_count : forall k n from, wsum (fun j => b2z (j =? k)) (zseq from n) <= 1 /\ (k < from \/ from + Z.of_nat n <= k -> wsum (fun j => b2z (j =? k)) (zseq from n) = 0).
Proof.
  intros k n. induction n as [|n IH]; intros from; cbn [zseq]; [cbn; split; [lia|reflexivity]|]. rewrite wsum_cons. destruct (IH (from + 1)) as [I1 I2]. destruct (Z.eqb_spec from k) as [->|N]; cbn [b2z].
  - rewrite I2 by lia. split; lia.
  - split; [lia|]. intros H. rewrite I2 by lia. reflexivity.
Qed.
Lemma starts_le : forall id os, wsum (sendw id) os <= wsum (fun j => b2z (j =? snd id)) (started os).
Proof.
  intros id os. induction os as [|o os IH]; [apply Z.le_refl|]. rewrite wsum_cons. destruct o as [| ? ? ? e | | | | |]; cbn [sendw started]; try lia. destruct e; cbn [sendw started]; try lia.
  rewrite wsum_cons. assert (b2z (zz_eqb (src, nsn) id) <= b2z (nsn =? snd id)) by (apply mis_le; rewrite zz_split; cbn [fst snd]; lia). lia.
Qed.

Section WORLD.
Context (acc self deployer : Z -> Z) (nets : list Z) (ND : NoDup nets).
Notation reach := (reach acc self deployer nets).
Notation channel := (channel acc).
Notation good := (good acc nets).

Section ID.
Context (id : Z * Z) (HID : 0 < snd id).

Lemma starts_other : forall w n, good w -> n <> fst id -> wsum (sendw id) (s_out (w_st w n)) = 0.
Proof using.
  intros w n G N. apply wsum_zero. intros o HI. destruct o as [| x k nx e | | | | |]; try reflexivity. destruct e; try reflexivity. cbn [sendw].
  assert (HA : alien n (OEvent x k nx SEND) = 0). { apply (nonneg_each (alien n) (s_out (w_st w n))); [|apply (g_alien _ _ _ G)|exact HI]. intros [| ? ? ? e | | | | |]; cbn [alien]; try lia. destruct e; try lia. apply b2z_range. }
  cbn [alien] in HA. destruct (Z.eqb_spec x n) as [->|]; [|discriminate HA]. rewrite zz_split. cbn [fst snd]. replace (n =? fst id) with false by lia. reflexivity.
Qed.
Lemma starts_own : forall w, good w -> wsum (sendw id) (s_out (w_st w (fst id))) <= 1 /\ (s_nsn (w_st w (fst id)) < snd id -> wsum (sendw id) (s_out (w_st w (fst id))) = 0).
Proof using HID.
  intros w G. pose proof (starts_le id (s_out (w_st w (fst id)))) as HL. destruct (g_started _ _ _ G (fst id)) as [S1 S2]. rewrite S1 in HL. destruct (zseq_count (snd id) (length (started (s_out (w_st w (fst id))))) 1) as [Z1 Z2].
  split; [lia|]. intros H. unfold zlen in S2. rewrite Z2 in HL by lia. assert (0 <= wsum (sendw id) (s_out (w_st w (fst id)))) by (apply wsum_nonneg; intros; apply sendw_nonneg). lia.
Qed.
Lemma starts_total : forall w, good w -> wsum (fun n => wsum (sendw id) (s_out (w_st w n))) nets <= 1.
Proof using HID ND.
  intros w G. destruct (starts_own w G) as [S1 _]. eapply Z.le_trans; [|exact S1].
  eapply Z.le_trans; [|apply (one_hit nets (fst id)); [exact ND|apply wsum_nonneg; intros; apply sendw_nonneg]].
  apply wsum_le. intros n _. destruct (Z.eqb_spec n (fst id)) as [->|N]; [lia|]. rewrite (starts_other _ _ G N). lia.
Qed.
Lemma started_own : forall w, good w -> snd id <= s_nsn (w_st w (fst id)) -> was_started w id.
Proof using HID.
  intros w G L. destruct (g_started _ _ _ G (fst id)) as [S1 S2]. assert (HI : In (snd id) (started (s_out (w_st w (fst id))))).
  { rewrite S1. unfold zlen in S2. assert (HZ : forall n from k, from <= k < from + Z.of_nat n -> In k (zseq from n)).
    { induction n as [|n IH]; intros from k H; [lia|]. cbn [zseq]. destruct (Z.eq_dec from k) as [->|N]; [left; reflexivity|]. right. apply IH. lia. }
    apply HZ. lia. }
  assert (HS : exists x nx, In (OEvent x (snd id) nx SEND) (s_out (w_st w (fst id)))).
  { clear - HI. induction (s_out (w_st w (fst id))) as [|o os IH]; [destruct HI|]. assert (HR : In (snd id) (started os) -> exists x nx, In (OEvent x (snd id) nx SEND) (o :: os)) by (intros H; destruct (IH H) as (x & nx & HX); exists x, nx; right; exact HX).
    destruct o as [| x k nx e | | | | |]; cbn [started] in HI; try (apply HR, HI). destruct e; try (apply HR, HI). destruct HI as [->|HI]; [|apply HR, HI]. exists x, nx. left. reflexivity. }
  destruct HS as (x & nx & HX). exists nx. assert (HA : alien (fst id) (OEvent x (snd id) nx SEND) = 0).
  { apply (nonneg_each (alien (fst id)) (s_out (w_st w (fst id)))); [|apply (g_alien _ _ _ G)|exact HX]. intros [| ? ? ? e | | | | |]; cbn [alien]; try lia. destruct e; try lia. apply b2z_range. }
  cbn [alien] in HA. destruct (Z.eqb_spec x (fst id)) as [->|]; [exact HX|discriminate HA].
Qed.
Lemma started_spec : forall w, good w -> wsum (fun n => wsum (sendw id) (s_out (w_st w n))) nets <= 0 \/ was_started w id.
Proof using HID ND.
  intros w G. destruct (Z_le_gt_dec (s_nsn (w_st w (fst id))) (snd id - 1)) as [L|L]; [left|right; apply started_own; [exact G|lia]].
  apply wsum_nonpos. intros n _. destruct (Z.eq_dec n (fst id)) as [->|N]; [|rewrite (starts_other _ _ G N); lia]. destruct (starts_own w G) as [_ S2]. rewrite S2 by lia. lia.
Qed.

(** counted over the whole history *)
Definition cum (wo : Z -> out -> Z) (wr : Z -> (Z * Z * Z) * rinfo -> Z) (wi : Z -> msg -> Z) (w : world) : Prop :=
  forall n, wpot (wo n) (wr n) (w_st w n) <= wsum (fun x => wi n (snd x)) (w_in w n).
Lemma cum_reach : forall wo wr wi we w, (forall n, fair n (wo n) (wr n) (wi n) (we n) signs 0) -> reach w -> cum wo wr wi w.
Proof using.
  intros wo wr wi we w HF H. induction H as [|w w' H IH HS]; [intros n; apply Z.le_refl|]. pose proof (reach_good _ _ _ _ _ H) as G. destruct HS as [n o verify serve chain_ok u s' HI HV HR E].
  intros k. cbn [w_st w_in]. destruct (Z.eq_dec k n) as [->|N]; [rewrite !put_same|rewrite !put_other by exact N; apply IH]. rewrite wsum_app. pose proof (IH n).
  pose proof (step_fair _ _ _ _ _ _ _ _ _ _ _ _ _ _ _ _ _ (g_wf _ _ _ G n) HV HR E (HF n) (proj1 (g_wf _ _ _ G n)) (fun p m => channel_signs _ _ _ _ _ _ G)). lia.
Qed.
Lemma origin_in : forall w n p m, good w -> In (p, m) (w_in w n) -> In m (channel w p n) /\ In p nets.
Proof using.
  intros w n p m G HI. assert (HG : In m (got w p n)). { unfold got. apply in_map_iff. exists (p, m). split; [reflexivity|]. apply filter_In. split; [exact HI|]. cbn [fst]. apply Z.eqb_refl. }
  destruct (g_hop _ _ _ G p n) as (r & E1 & _). rewrite E1 in HG. assert (HC : In m (channel w p n)) by (rewrite <- (firstn_skipn r); apply in_or_app; left; exact HG).
  split; [exact HC|]. destruct (in_dec Z.eq_dec p nets) as [HP|NP]; [exact HP|]. destruct (g_idle _ _ _ G p NP) as [E _]. unfold M_Net.channel in HC. rewrite E in HC. destruct HC.
Qed.
(** what was put out for a network has arrived there or is under way *)
Lemma channel_split : forall w p n, good w -> channel w p n = got w p n ++ flying acc w p n.
Proof using.
  intros w p n G. unfold flying. destruct (g_hop _ _ _ G p n) as (r & E1 & E2 & _). rewrite E1, firstn_length, Nat.min_l by exact E2. symmetry. apply firstn_skipn.
Qed.
Lemma balance : forall w (f : msg -> Z) (wr : Z -> (Z * Z * Z) * rinfo -> Z) (gone : Z -> msg -> Z), good w -> (forall m, 0 <= f m) ->
  cum (fun _ o => on_sent f o - sendw id o) wr (fun n m => f m - gone n m) w ->
  wsum (fun p => wsum (fun n => wsum f (flying acc w p n)) nets) nets + wsum (fun n => wsum (wr n) (s_resp (w_st w n))) nets + wsum (fun n => wsum (fun x => gone n (snd x)) (w_in w n)) nets
    <= wsum (fun n => wsum (sendw id) (s_out (w_st w n))) nets.
Proof using ND.
  intros w f wr gone G HF HC.
  assert (H1 : wsum (fun n => wpot (fun o => on_sent f o - sendw id o) (wr n) (w_st w n)) nets <= wsum (fun n => wsum (fun x => f (snd x) - gone n (snd x)) (w_in w n)) nets) by (apply wsum_le; intros n _; apply HC).
  unfold wpot in H1. rewrite wsum_plus in H1. rewrite (wsum_ext _ (fun n => wsum (on_sent f) (s_out (w_st w n)) - wsum (sendw id) (s_out (w_st w n)))) in H1 by (intros; apply wsum_sub).
  rewrite wsum_sub in H1. rewrite (wsum_ext (fun n => wsum (fun x => f (snd x) - gone n (snd x)) (w_in w n)) (fun n => wsum (fun x => f (snd x)) (w_in w n) - wsum (fun x => gone n (snd x)) (w_in w n))) in H1 by (intros; apply wsum_sub).
  rewrite wsum_sub in H1.
  assert (H2 : wsum (fun n => wsum (fun x => f (snd x)) (w_in w n)) nets = wsum (fun p => wsum (fun n => wsum f (got w p n)) nets) nets).
  { rewrite wsum_swap. apply wsum_ext. intros n _. rewrite (by_origin f nets); [reflexivity|exact ND|]. intros p m HI. apply (origin_in _ _ _ _ G HI). }
  assert (H3 : wsum (fun p => wsum (fun n => wsum f (channel w p n)) nets) nets <= wsum (fun p => wsum (on_sent f) (s_out (w_st w p))) nets) by (apply wsum_le; intros p _; apply channels_le; assumption).
  rewrite (wsum_ext _ (fun p => wsum (fun n => wsum f (got w p n)) nets + wsum (fun n => wsum f (flying acc w p n)) nets)) in H3.
  - rewrite wsum_plus in H3. lia.
  - intros p _. rewrite <- wsum_plus. apply wsum_ext. intros n _. rewrite (channel_split _ _ _ G), wsum_app. reflexivity.
Qed.
End ID.
End WORLD.
