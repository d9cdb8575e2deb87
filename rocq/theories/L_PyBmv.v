(** Lemmas about the ICON block verifier of the Python contracts. *)
From Coq Require Import String Ascii ZArith List Bool Lia.
From Coq Require Import ZifyBool.
From Verif Require Import Base GoStr L_Base M_PyRlp M_PyMta L_PyMta M_PyMpt M_PyBmv S_Mta S_JMpt S_PyBmv.
From Verif Require L_JIbmv.
Import ListNotations.
Open Scope Z_scope.

Lemma y_add_height : forall H m h m', y_add H m h = Some m' -> y_height m' = y_height m + 1.
Proof.
  intros H m h m' E. unfold y_add in E. destruct (put_cache m h); [|discriminate]. cbv zeta in E. destruct (y_height m + 1 <? 0); [discriminate|]. injection E as <-. reflexivity.
Qed.
Lemma y_adds_height : forall H hs m m', y_adds H m hs = Some m' -> y_height m' = y_height m + zlen hs.
Proof.
  induction hs as [|h hs IH]; intros m m' E; cbn [y_adds] in E; [injection E as <-; change (zlen (@nil (list Z))) with 0; lia|].
  destruct (y_add H m h) as [m1|] eqn:EA; [|discriminate]. apply y_add_height in EA. apply IH in E. rewrite zlen_cons. lia.
Qed.
Lemma y_adds_more : forall H l1 l2 m m', y_adds H m l1 = Some m' -> y_adds H m (l1 ++ l2) = y_adds H m' l2.
Proof.
  induction l1 as [|x l1 IH]; intros l2 m m' E; cbn [y_adds app] in *; [congruence|]. destruct (y_add H m x); [|discriminate]. eauto.
Qed.
Lemma of_opt_ok : forall A (o : option A) B (f : A -> result B) b, rbind (of_opt o) f = Ok b <-> exists a, o = Some a /\ f a = Ok b.
Proof.
  intros A [a|] B f b; cbn [of_opt rbind]; split.
  - intros E. exists a. auto.
  - intros (a' & [= <-] & E). exact E.
  - discriminate.
  - intros (a & [=] & _).
Qed.
Lemma rbind_ok : forall A B (r : result A) (f : A -> result B) b, rbind r f = Ok b <-> exists a, r = Ok a /\ f a = Ok b.
Proof.
  intros A B [a|e|] f b; cbn [rbind]; split.
  - intros E. exists a. auto.
  - intros (a' & [= <-] & E). exact E.
  - discriminate.
  - intros (a & [=] & _).
  - discriminate.
  - intros (a & [=] & _).
Qed.

Section CHAIN.
Context (H : list Z -> list Z) (recover : list Z -> list Z -> option (list Z)).
Notation count_votes := (M_PyBmv.count_votes H recover).

Definition vote_of (height : Z) (block : list Z) (vs : pvotes) (v : pyval * pyval) (a : list Z) : Prop :=
  exists sig, snd v = PBytes sig /\ recover (H (signed height (pt_round vs) block (pt_part vs) (fst v))) sig = Some a.
Lemma count_votes_iff : forall vals height block vs items seen out, NoDup seen -> incl seen vals ->
  (count_votes height block vs vals items seen = Ok out <->
   exists voters, out = seen ++ voters /\ NoDup out /\ incl out vals /\ Forall2 (vote_of height block vs) items voters).
Proof.
  intros vals height block vs items. induction items as [|[t s] items IH]; intros seen out ND IN; cbn [M_PyBmv.count_votes].
  - split.
    + intros [= <-]. exists []. rewrite app_nil_r. auto.
    + intros (voters & -> & _ & _ & F). inversion F. rewrite app_nil_r. reflexivity.
  - change (vote_message height block vs t) with (signed height (pt_round vs) block (pt_part vs) t). split.
    + intros E. apply of_opt_ok in E. destruct E as (a & ER & E).
      destruct (existsb (bytes_eqb a) vals) eqn:E1; cbn [negb] in E; [|discriminate]. apply L_JIbmv.existsb_bytes in E1.
      destruct (existsb (bytes_eqb a) seen) eqn:E2; [discriminate|]. apply L_JIbmv.existsb_bytes_false in E2.
      apply IH in E.
      * destruct E as (voters & -> & A & B & C). exists (a :: voters). rewrite <- app_assoc in *. split; [reflexivity|]. split; [assumption|]. split; [assumption|].
        constructor; [|assumption]. destruct s; try discriminate. eexists. split; [reflexivity|exact ER].
      * apply L_JIbmv.NoDup_app_snoc; assumption.
      * intros x Hx. apply in_app_iff in Hx. destruct Hx as [Hx|[<-|[]]]; auto.
    + intros (voters & -> & A & B & C). inversion C as [|? a ? vs' Ha C']; subst. destruct Ha as (sig & ES & ER). cbn [snd] in ES. subst s. cbn [fst] in ER. rewrite ER. cbn [of_opt rbind].
      assert (I1 : In a vals) by (apply B; apply in_app_iff; right; left; reflexivity). apply L_JIbmv.existsb_bytes in I1. rewrite I1. cbn [negb].
      assert (I2 : ~ In a seen). { intros I. apply NoDup_remove_2 in A. apply A. apply in_app_iff. auto. } apply L_JIbmv.existsb_bytes_false in I2. rewrite I2.
      apply IH.
      * apply L_JIbmv.NoDup_app_snoc; [assumption|]. apply L_JIbmv.existsb_bytes_false. assumption.
      * intros x Hx. apply in_app_iff in Hx. destruct Hx as [Hx|[<-|[]]]; [auto|]. apply L_JIbmv.existsb_bytes. assumption.
      * exists vs'. rewrite <- app_assoc. auto.
Qed.
Lemma verify_votes_iff : forall height block vs vals, verify_votes H recover height block vs vals = Ok tt <-> quorum H recover (pv_addrs vals) height block vs.
Proof.
  intros height block vs vals. unfold verify_votes. split.
  - intros E. apply rbind_ok in E. destruct E as (seen & EC & E). apply count_votes_iff in EC; [|constructor|intros x []]. destruct EC as (voters & -> & A & B & C). cbn [app] in *.
    destruct (3 * zlen voters <=? 2 * zlen (pv_addrs vals)) eqn:EQ; [discriminate|]. exists voters. split; [assumption|]. split; [assumption|]. split; [lia|exact C].
  - intros (voters & A & B & Q & C).
    rewrite (proj2 (count_votes_iff (pv_addrs vals) height block vs (pt_items vs) [] voters (NoDup_nil _) ltac:(intros x []))).
    + cbn [rbind]. replace (3 * zlen voters <=? 2 * zlen (pv_addrs vals)) with false by lia. reflexivity.
    + exists voters. auto.
Qed.
Lemma block_update_iff : forall m vals u m' vals',
  block_update H recover (m, vals) u = Ok (m', vals') <-> exists b, certified H recover vals (y_height m + 1) u b vals' /\ y_add H m b = Some m'.
Proof.
  intros m vals u m' vals'. unfold block_update. cbn [fst snd]. split.
  - intros E. apply of_opt_ok in E. destruct E as (h & EH & E). apply of_opt_ok in E. destruct E as (height & EN & E).
    destruct (y_height m + 1 =? height) eqn:EQ; [|destruct (y_height m + 1 <? height); discriminate]. assert (height = y_height m + 1) as -> by lia.
    apply rbind_ok in E. destruct E as (v & EV & E). apply of_opt_ok in E. destruct E as (m1 & EA & [= <- <-]).
    exists (H (ph_bytes h)). split; [|assumption]. unfold verify_update in EV. destruct (pu_votes u) as [vs|] eqn:EP; [|discriminate].
    apply rbind_ok in EV. destruct EV as ([] & EQV & EV). apply verify_votes_iff in EQV. exists h, vs. split; [assumption|]. split; [exact EP|]. split; [assumption|]. split; [reflexivity|]. split; [assumption|].
    destruct (ph_next h) as [n|].
    + destruct (bytes_eqb_spec n (H (pv_bytes vals))) as [EE|N].
      * subst n. injection EV as <-. rewrite bytes_eqb_refl. auto.
      * destruct (pu_next u) as [nv|]; [|discriminate]. destruct (bytes_eqb_spec (H (pv_bytes nv)) n) as [EE|]; [|discriminate]. subst n. injection EV as <-. split; [reflexivity|].
        destruct (bytes_eqb_spec (H (pv_bytes vals)) (H (pv_bytes nv))); [congruence|reflexivity].
    + destruct (pu_next u); discriminate.
  - intros (b & (h & vs & E1 & E2 & E3 & -> & Q & E5 & E6) & EA). rewrite E1. cbn [of_opt rbind]. rewrite E3. cbn [of_opt rbind]. rewrite Z.eqb_refl.
    unfold verify_update. rewrite E2. rewrite (proj2 (verify_votes_iff _ _ _ _) Q). cbn [rbind]. rewrite E5.
    destruct (bytes_eqb_spec (H (pv_bytes vals)) (H (pv_bytes vals'))) as [E|N].
    + subst vals'. rewrite bytes_eqb_refl. cbn [rbind]. rewrite EA. reflexivity.
    + destruct (bytes_eqb_spec (H (pv_bytes vals')) (H (pv_bytes vals))); [congruence|]. rewrite E6, bytes_eqb_refl. cbn [rbind]. rewrite EA. reflexivity.
Qed.
Lemma block_updates_iff : forall us m vals m' vals',
  block_updates H recover (m, vals) us = Ok (m', vals') <-> exists bs, chain H recover (y_height m) vals us bs vals' /\ y_adds H m bs = Some m'.
Proof.
  induction us as [|u us IH]; intros m vals m' vals'; cbn [block_updates].
  - split.
    + intros [= <- <-]. exists []. split; [constructor|reflexivity].
    + intros (bs & C & A). inversion C; subst. cbn [y_adds] in A. congruence.
  - split.
    + intros E. apply rbind_ok in E. destruct E as ([m1 v1] & E1 & E). apply block_update_iff in E1. destruct E1 as (b & C & A). pose proof (y_add_height _ _ _ _ A) as HH.
      apply IH in E. destruct E as (bs & CH & AA). exists (b :: bs). rewrite HH in CH. split; [econstructor; eassumption|]. cbn [y_adds]. rewrite A. exact AA.
    + intros (bs & C & A). inversion C as [|? ? ? b v1 ? bs' ? C1 C2]; subst. cbn [y_adds] in A. destruct (y_add H m b) as [m1|] eqn:EA; [|discriminate].
      apply rbind_ok. exists (m1, v1). split; [apply block_update_iff; exists b; auto|]. apply IH. exists bs'. rewrite (y_add_height _ _ _ _ EA). auto.
Qed.

(** ** Chains *)
Lemma chain_app : forall us1 us2 h vals bs1 bs2 v1 v2, chain H recover h vals us1 bs1 v1 -> chain H recover (h + zlen bs1) v1 us2 bs2 v2 ->
  chain H recover h vals (us1 ++ us2) (bs1 ++ bs2) v2.
Proof.
  induction us1 as [|u us1 IH]; intros us2 h vals bs1 bs2 v1 v2 C1 C2; inversion C1; subst; cbn [app].
  - change (zlen (@nil (list Z))) with 0 in C2. rewrite Z.add_0_r in C2. exact C2.
  - econstructor; [eassumption|]. eapply IH; [eassumption|]. rewrite zlen_cons in C2. match goal with C : chain _ _ (?h + (zlen ?b + 1)) _ _ _ _ |- _ => replace (h + 1 + zlen b) with (h + (zlen b + 1)) by lia end. exact C2.
Qed.
Lemma chain_length : forall us h vals bs v, chain H recover h vals us bs v -> length us = length bs.
Proof. intros us h vals bs v C. induction C; cbn [length]; congruence. Qed.
Lemma chain_32 : forall us h vals bs v, digest32 H -> chain H recover h vals us bs v -> all32 bs.
Proof. intros us h vals bs v D C. induction C as [|? ? ? ? ? ? ? ? (hd & vs & _ & _ & _ & -> & _)]; constructor; auto. Qed.
Lemma chain_last : forall us h vals bs v u, chain H recover h vals (us ++ [u]) bs v -> exists hd b, pu_header u = Some hd /\ b = H (ph_bytes hd) /\ In b bs /\ ph_height hd = Some (h + zlen bs).
Proof.
  induction us as [|u0 us IH]; intros h vals bs v u C; cbn [app] in C; inversion C as [|? ? ? b v1 ? bs' ? C1 C2]; subst.
  - inversion C2; subst. destruct C1 as (hd & vs & E1 & _ & E3 & E4 & _). exists hd, b. split; [assumption|]. split; [assumption|]. split; [left; reflexivity|]. exact E3.
  - destruct (IH _ _ _ _ _ C2) as (hd & b' & E1 & E2 & I & E3). exists hd, b'. split; [assumption|]. split; [assumption|]. split; [right; assumption|]. rewrite zlen_cons, E3. f_equal. lia.
Qed.
Lemma chain_In : forall us h vals bs v b, chain H recover h vals us bs v -> In b bs -> exists u hd, In u us /\ pu_header u = Some hd /\ b = H (ph_bytes hd).
Proof.
  intros us h vals bs v b C. induction C as [|h vals u b1 v1 us bs v2 (hd & vs & E1 & _ & _ & E2 & _) C IH]; intros I; [destruct I|].
  destruct I as [<-|I]; [exists u, hd; cbn [In]; auto|]. destruct (IH I) as (u' & hd' & I' & E'). exists u', hd'. cbn [In]. tauto.
Qed.

(** two quorums meet *)
Lemma quorums_meet : forall vals height b b' vs vs', quorum H recover vals height b vs -> quorum H recover vals height b' vs' -> double_voters H recover vals height b b'.
Proof.
  intros vals height b b' vs vs' (A & NA & IA & QA & FA) (B & NB & IB & QB & FB).
  set (I := filter (fun a => existsb (bytes_eqb a) B) A). set (R := filter (fun a => negb (existsb (bytes_eqb a) B)) A).
  assert (L : length A = (length I + length R)%nat). { unfold I, R. clear. induction A as [|x A IH]; cbn [filter]; [reflexivity|]. destruct (existsb (bytes_eqb x) B); cbn [negb length]; lia. }
  assert (NR : NoDup (R ++ B)).
  { assert (G : forall l, NoDup l -> NoDup (filter (fun a => negb (existsb (bytes_eqb a) B)) l ++ B)).
    { induction l as [|y l IHl]; intros Nl; cbn [filter]; [exact NB|]. inversion Nl; subst. destruct (existsb (bytes_eqb y) B) eqn:E; cbn [negb app]; [auto|].
      constructor; [|auto]. intros Hy. apply in_app_iff in Hy. destruct Hy as [Hy|Hy]; [apply filter_In in Hy; tauto|]. apply L_JIbmv.existsb_bytes in Hy. congruence. }
    apply G. assumption. }
  assert (LR : (length (R ++ B) <= length vals)%nat).
  { apply NoDup_incl_length; [assumption|]. intros x Hx. apply in_app_iff in Hx. destruct Hx as [Hx|Hx]; [|auto]. unfold R in Hx. apply filter_In in Hx. apply IA. tauto. }
  rewrite app_length in LR.
  exists I. split; [apply NoDup_filter; assumption|]. split; [intros x Hx; apply filter_In in Hx; apply IA; tauto|]. split; [unfold zlen in *; lia|].
  apply Forall_forall. intros x Hx. apply filter_In in Hx. destruct Hx as [HA HBx]. apply L_JIbmv.existsb_bytes in HBx.
  assert (G : forall b0 vs0 l, Forall2 (vote_of height b0 vs0) (pt_items vs0) l -> In x l -> voted_for H recover height b0 x).
  { intros b0 vs0 l F. generalize dependent l. generalize (pt_items vs0) as items. intros items l F. induction F as [|v a items l Ha F IH]; intros Hin; [destruct Hin|].
    destruct Hin as [->|Hin]; [|auto]. destruct Ha as (sig & _ & ER). exists (pt_round vs0), (pt_part vs0), (fst v), sig. exact ER. }
  split; eapply G; eassumption.
Qed.

(** ** Forks *)
Context (utf8 : list Z -> bool) (from_bytes_ : list Z -> option (list Z)).
Notation true_vals := (true_vals utf8 from_bytes_).
Notation true_update := (true_update utf8 from_bytes_).
Lemma same_hash : forall x y, H x = H y -> x = y \/ collision H.
Proof. intros x y E. destruct (bytes_eqb_spec x y); [auto|]. right. exists x, y. auto. Qed.
Lemma certified_next : forall vals h u b v u' v', true_vals vals -> true_update u -> true_update u' ->
  certified H recover vals h u b v -> certified H recover vals h u' b v' -> (v = v' /\ true_vals v) \/ collision H.
Proof.
  intros vals h u b v u' v' PV (PH & PN) (PH' & PN') (hd & vs & E1 & E2 & E3 & E4 & Q & E5 & E6) (hd' & vs' & E1' & E2' & E3' & E4' & Q' & E5' & E6').
  destruct (same_hash (ph_bytes hd) (ph_bytes hd') ltac:(congruence)) as [E|]; [|auto].
  assert (hd' = hd) as ->. { pose proof (PH _ E1) as X. pose proof (PH' _ E1') as X'. rewrite <- E in X'. congruence. }
  destruct (same_hash (pv_bytes v) (pv_bytes v') ltac:(congruence)) as [EV|]; [|auto].
  assert (P1 : true_vals v). { destruct (bytes_eqb (H (pv_bytes vals)) (H (pv_bytes v))); [subst; assumption|auto]. }
  assert (P2 : true_vals v'). { destruct (bytes_eqb (H (pv_bytes vals)) (H (pv_bytes v'))); [subst; assumption|auto]. }
  left. split; [|assumption]. unfold S_PyBmv.true_vals in P1, P2. congruence.
Qed.
Lemma no_fork : forall us us' h vals bs bs' v v', true_vals vals -> Forall true_update us -> Forall true_update us' ->
  chain H recover h vals us bs v -> chain H recover h vals us' bs' v' ->
  begins bs bs' \/ begins bs' bs \/ collision H \/
  exists n us0 bs0 vals0 b b', (n < length us)%nat /\ (n < length us')%nat /\ us0 = firstn n us /\ bs0 = firstn n bs /\ bs0 = firstn n bs' /\ chain H recover h vals us0 bs0 vals0 /\
    nth_error bs n = Some b /\ nth_error bs' n = Some b' /\ b <> b' /\ double_voters H recover (pv_addrs vals0) (h + Z.of_nat n + 1) b b'.
Proof.
  induction us as [|u us IH]; intros us' h vals bs bs' v v' PV PU PU' C C'.
  - inversion C; subst. left. exists bs'. reflexivity.
  - destruct us' as [|u' us']; [inversion C'; subst; right; left; exists bs; reflexivity|].
    inversion C as [|? ? ? b v1 ? bs1 ? C1 C2]; subst. inversion C' as [|? ? ? b' v1' ? bs1' ? C1' C2']; subst. inversion PU as [|? ? PA PB]; subst. inversion PU' as [|? ? PA' PB']; subst.
    destruct (bytes_eqb_spec b b') as [E|N].
    + subst b'. destruct (certified_next _ _ _ _ _ _ _ PV PA PA' C1 C1') as [[<- P1]|CO]; [|auto].
      destruct (IH us' _ _ _ _ _ _ P1 PB PB' C2 C2') as [(r & ->)|[(r & ->)|[CO|(n & us0 & bs0 & vals0 & c & c' & L1 & L2 & A1 & A2 & A3 & CC & N1 & N2 & NE & D)]]].
      * left. exists r. reflexivity.
      * right. left. exists r. reflexivity.
      * auto.
      * right. right. right. exists (S n), (u :: us0), (b :: bs0), vals0, c, c'. cbn [length]. split; [lia|]. split; [lia|]. cbn [firstn nth_error]. split; [congruence|]. split; [congruence|]. split; [congruence|].
        split; [econstructor; eassumption|]. split; [assumption|]. split; [assumption|]. split; [assumption|].
        replace (h + Z.of_nat (S n) + 1) with (h + 1 + Z.of_nat n + 1) by lia. assumption.
    + right. right. right. exists 0%nat, [], [], vals, b, b'. cbn [length firstn nth_error]. split; [lia|]. split; [lia|]. split; [reflexivity|]. split; [reflexivity|]. split; [reflexivity|].
      split; [constructor|]. split; [reflexivity|]. split; [reflexivity|]. split; [assumption|]. change (Z.of_nat 0) with 0. rewrite Z.add_0_r.
      destruct C1 as (hd & vs & _ & _ & _ & _ & Q & _). destruct C1' as (hd' & vs' & _ & _ & _ & _ & Q' & _). eapply quorums_meet; eassumption.
Qed.

(** What is read is what the bytes say. *)
Lemma header_true : forall b h, read_header utf8 b = Some h -> ph_bytes h = b.
Proof.
  intros b h E. unfold read_header in E. destruct (rlp_decode utf8 b header_ty) as [[| | | | |l]|]; try discriminate.
  do 11 (destruct l as [|? l]; try discriminate). destruct l; [|discriminate]. destruct (some_bytes _) as [rb|].
  - destruct (rlp_decode utf8 rb _) as [[| | | | |l]|]; try discriminate. do 3 (destruct l as [|? l]; try discriminate). destruct l; [|discriminate]. injection E as <-. reflexivity.
  - injection E as <-. reflexivity.
Qed.
Lemma vals_true : forall b v, read_validators utf8 from_bytes_ b = Some v -> pv_bytes v = b /\ true_vals v.
Proof.
  intros b v E. assert (X : pv_bytes v = b). { unfold read_validators in E. destruct (rlp_decode utf8 b _) as [[| | | | |l]|]; try discriminate. destruct (addresses from_bytes_ l); [|discriminate]. injection E as <-. reflexivity. }
  split; [assumption|]. unfold S_PyBmv.true_vals. rewrite X. exact E.
Qed.
Lemma when_some : forall A (read : list Z -> option A) v x, when read v = Some (Some x) -> exists b, v = Some b /\ read b = Some x.
Proof. intros A read [b|] x E; cbn [when] in E; [|discriminate]. exists b. split; [reflexivity|]. destruct (read b); [congruence|discriminate]. Qed.
Lemma update_true : forall b u, read_update utf8 from_bytes_ b = Some u -> true_update u.
Proof.
  intros b u E. unfold read_update in E. destruct (rlp_decode utf8 b _) as [[| | | | |l]|]; try discriminate. do 3 (destruct l as [|? l]; try discriminate). destruct l; [|discriminate].
  destruct (when (read_header utf8) _) as [h|] eqn:EH; [|discriminate]. destruct (when (read_votes utf8) _) as [vs|]; [|discriminate]. destruct (when (read_validators utf8 from_bytes_) _) as [n|] eqn:EN; [|discriminate].
  injection E as <-. split; cbn [pu_header pu_next].
  - intros h0 ->. apply when_some in EH. destruct EH as (x & _ & EH). rewrite (header_true _ _ EH). exact EH.
  - intros v ->. apply when_some in EN. destruct EN as (x & _ & EN). apply (vals_true _ _ EN).
Qed.
Lemma all_read_forall : forall A (P : A -> Prop) read l x, (forall b a, read b = Some a -> P a) -> all_read read l = Some x -> Forall P x.
Proof.
  intros A P read l. induction l as [|v l IH]; intros x HP E; cbn [all_read] in E; [injection E as <-; constructor|].
  destruct v; try discriminate. destruct (read b) as [a|] eqn:ER; [|discriminate]. destruct (all_read read l) as [y|]; [|discriminate]. injection E as <-. constructor; eauto.
Qed.
Lemma relay_true : forall b rm, read_relay utf8 from_bytes_ b = Some rm -> Forall true_update (pr_updates rm).
Proof.
  intros b rm E. unfold read_relay in E. destruct (rlp_decode utf8 b _) as [[| | | | |l]|]; try discriminate. destruct l as [|[| | | | |us] [|p [|[| | | | |rs] [|]]]]; try discriminate.
  destruct (all_read (read_update utf8 from_bytes_) us) as [x|] eqn:EU; [|discriminate]. destruct (when _ _); [|discriminate]. destruct (all_read _ rs); [|discriminate]. injection E as <-. cbn [pr_updates].
  eapply all_read_forall; [|exact EU]. exact update_true.
Qed.
End CHAIN.

(** ** Events *)
Section EVENTS.
Context (from_bytes_ : list Z -> option (list Z)) (show : list Z -> list Z).
Notation take_events := (M_PyBmv.take_events from_bytes_ show).
Notation messages := (messages from_bytes_ show).
Notation message_event := (message_event from_bytes_ show).
Notation emitted_by := (emitted_by from_bytes_ show).
Lemma take_events_iff : forall contract bmc es seq msgs n out,
  take_events contract bmc es seq msgs = Ok (n, out) <-> exists ms, messages contract bmc es seq ms /\ out = msgs ++ ms /\ n = seq + zlen ms.
Proof.
  intros contract bmc es. induction es as [|e es IH]; intros seq msgs n out; cbn [M_PyBmv.take_events].
  - split.
    + intros [= <- <-]. exists []. split; [constructor|]. rewrite app_nil_r. split; [reflexivity|]. change (zlen (@nil pyval)) with 0. lia.
    + intros (ms & M & -> & ->). inversion M; subst. rewrite app_nil_r. change (zlen (@nil pyval)) with 0. rewrite Z.add_0_r. reflexivity.
  - rewrite of_opt_ok. split.
    + intros (a & EA & E). assert (EM : emitted_by e (show a)). { destruct (pe_addr e) eqn:EP; try discriminate. exists b, a. auto. }
      destruct (bytes_eqb_spec (show a) contract) as [EC|NC]; cbn [negb] in E.
      2: { apply IH in E. destruct E as (ms & M & EO & EN). exists ms. split; [|auto]. eapply ms_other; eauto. }
      destruct (bytes_eqb_spec (pe_method e) (str "Message")) as [EC2|NC]; cbn [negb] in E.
      2: { apply IH in E. destruct E as (ms & M & EO & EN). exists ms. split; [|auto]. eapply ms_other; eauto. }
      destruct (pe_params e) as [|next [|num [|m more]]] eqn:EP; try discriminate. apply of_opt_ok in E. destruct E as (k & EK & E).
      assert (NK : number num k). { destruct num; try discriminate; injection EK as <-; [left; reflexivity|right; eauto]. }
      destruct (seq <? k) eqn:E1; [discriminate|]. destruct (k <? seq) eqn:E2; [discriminate|]. assert (k = seq) as -> by lia.
      assert (ME : message_event contract e next seq m). { split; [rewrite <- EC; assumption|]. split; [assumption|]. exists num, more. auto. }
      destruct (match next with PStr s => bytes_eqb s bmc | _ => false end) eqn:EN.
      * assert (next = PStr bmc) as ->. { destruct next; try discriminate. destruct (bytes_eqb_spec s bmc); [congruence|discriminate]. }
        apply IH in E. destruct E as (ms & M & EO & EN2). exists (m :: ms). split; [apply ms_next; assumption|]. rewrite <- app_assoc in EO. rewrite zlen_cons. split; [assumption|lia].
      * apply IH in E. destruct E as (ms & M & EO & EN2). exists ms. split; [|auto]. apply (ms_elsewhere _ _ _ _ e es seq ms next m ME); [|assumption]. intros ->. rewrite bytes_eqb_refl in EN. discriminate.
    + intros (ms & M & -> & ->). inversion M as [|? ? ? ? other (b & a & E1 & E2 & E3) NO M'|? ? ? ? next m ((b & a & E1 & E2 & E3) & EM & num & more & EP & NK) NN M'|? ? ? m ms' ((b & a & E1 & E2 & E3) & EM & num & more & EP & NK) M']; subst; exists a; rewrite E1; (split; [assumption|]).
      * destruct (bytes_eqb_spec (show a) contract) as [EC|NC]; cbn [negb]; [|apply IH; eauto]. destruct NO as [NO|NO]; [congruence|].
        destruct (bytes_eqb_spec (pe_method e) (str "Message")); [congruence|]. cbn [negb]. apply IH. eauto.
      * rewrite bytes_eqb_refl. cbn [negb]. rewrite EM, bytes_eqb_refl. cbn [negb]. rewrite EP. apply of_opt_ok. exists seq. split; [destruct NK as [->|(x & -> & ->)]; reflexivity|].
        rewrite Z.ltb_irrefl. replace (match next with PStr s => bytes_eqb s bmc | _ => false end) with false; [apply IH; eauto|]. destruct next; try reflexivity. destruct (bytes_eqb_spec s bmc); congruence.
      * rewrite bytes_eqb_refl. cbn [negb]. rewrite EM, bytes_eqb_refl. cbn [negb]. rewrite EP. apply of_opt_ok. exists seq. split; [destruct NK as [->|(x & -> & ->)]; reflexivity|].
        rewrite Z.ltb_irrefl, bytes_eqb_refl. apply IH. exists ms'. rewrite <- app_assoc, zlen_cons. split; [assumption|]. split; [reflexivity|lia].
Qed.
Lemma messages_app : forall contract bmc e1 e2 n ms1 ms2, messages contract bmc e1 n ms1 -> messages contract bmc e2 (n + zlen ms1) ms2 -> messages contract bmc (e1 ++ e2) n (ms1 ++ ms2).
Proof.
  intros contract bmc e1 e2 n ms1 ms2 M. revert ms2. induction M as [n|e es n ms other EM NO M IH|e es n ms next m ME NN M IH|e es n m ms ME M IH]; intros ms2 M2; cbn [app].
  - change (zlen (@nil pyval)) with 0 in M2. rewrite Z.add_0_r in M2. exact M2.
  - eapply ms_other; eauto.
  - eapply ms_elsewhere; eauto.
  - apply ms_next; [assumption|]. apply IH. rewrite zlen_cons in M2. replace (n + 1 + zlen ms) with (n + (zlen ms + 1)) by lia. exact M2.
Qed.
Lemma messages_split : forall contract bmc e1 e2 n ms, messages contract bmc (e1 ++ e2) n ms -> exists ms1 ms2, ms = ms1 ++ ms2 /\ messages contract bmc e1 n ms1 /\ messages contract bmc e2 (n + zlen ms1) ms2.
Proof.
  intros contract bmc e1. induction e1 as [|e e1 IH]; intros e2 n ms M; cbn [app] in M.
  - exists [], ms. split; [reflexivity|]. split; [constructor|]. change (zlen (@nil pyval)) with 0. rewrite Z.add_0_r. exact M.
  - inversion M as [|? ? ? ? other EM NO M'|? ? ? ? next m ME NN M'|? ? ? m ms' ME M']; subst; destruct (IH _ _ _ M') as (m1 & m2 & -> & A & B).
    + exists m1, m2. split; [reflexivity|]. split; [eapply ms_other; eauto|assumption].
    + exists m1, m2. split; [reflexivity|]. split; [eapply ms_elsewhere; eauto|assumption].
    + exists (m :: m1), m2. split; [reflexivity|]. split; [apply ms_next; assumption|]. rewrite zlen_cons. replace (n + (zlen m1 + 1)) with (n + 1 + zlen m1) by lia. exact B.
Qed.
Context (H : list Z -> list Z) (utf8 : list Z -> bool).
Lemma take_receipts_iff : forall root contract bmc ps seq msgs n out,
  take_receipts H utf8 from_bytes_ show root contract bmc ps seq msgs = Ok (n, out) <->
  exists logs ms, Forall2 (fun p es => prove_receipt H utf8 from_bytes_ root p = Ok es) ps logs /\ messages contract bmc (concat logs) seq ms /\ out = msgs ++ ms /\ n = seq + zlen ms.
Proof.
  intros root contract bmc ps. induction ps as [|p ps IH]; intros seq msgs n out; cbn [take_receipts].
  - split.
    + intros [= <- <-]. exists [], []. split; [constructor|]. split; [constructor|]. rewrite app_nil_r. split; [reflexivity|]. change (zlen (@nil pyval)) with 0. lia.
    + intros (logs & ms & F & M & -> & ->). inversion F; subst. cbn [concat] in M. inversion M; subst. rewrite app_nil_r. change (zlen (@nil pyval)) with 0. rewrite Z.add_0_r. reflexivity.
  - rewrite rbind_ok. split.
    + intros (es & EP & E). apply rbind_ok in E. destruct E as ([n1 m1] & ET & E). apply take_events_iff in ET. destruct ET as (ms1 & M1 & -> & ->). cbn [fst snd] in E. apply IH in E.
      destruct E as (logs & ms & F & M & -> & ->). exists (es :: logs), (ms1 ++ ms). split; [constructor; assumption|]. split; [cbn [concat]; apply messages_app; assumption|].
      rewrite <- app_assoc, zlen_app. split; [reflexivity|lia].
    + intros (logs & ms & F & M & -> & ->). inversion F as [|? es ? logs' EP F']; subst. cbn [concat] in M. destruct (messages_split _ _ _ _ _ _ M) as (m1 & m2 & -> & A & B).
      exists es. split; [assumption|]. apply rbind_ok. exists (seq + zlen m1, msgs ++ m1). split; [apply take_events_iff; eauto|]. cbn [fst snd]. apply IH.
      exists logs', m2. split; [assumption|]. split; [assumption|]. rewrite <- app_assoc, zlen_app. split; [reflexivity|lia].
Qed.
End EVENTS.
