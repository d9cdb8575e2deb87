(** Lemmas about the ICON block verifier. *)
From Coq Require Import String Ascii ZArith List Bool Lia Permutation.
From Coq Require Import ZifyBool.
From Verif Require Import Base GoStr L_Base M_IntConv S_IntConv L_IntConv M_Rlp M_JBmv S_JBmv M_Wire M_Misc M_BtpAddr M_JMsg M_JMta S_Mta M_JMpt S_JMpt L_JMpt M_JIcon M_JIbmv S_Rlp L_Rlp S_Wire L_Wire L_JBmv2 S_JIbmv.
Import ListNotations.
Open Scope Z_scope.

Lemma NoDup_app_snoc : forall A (l : list A) x, NoDup l -> ~ In x l -> NoDup (l ++ [x]).
Proof.
  intros A l x N I. apply (Permutation_NoDup (l := x :: l)); [|constructor; assumption].
  apply Permutation_cons_append.
Qed.
Lemma existsb_bytes : forall a l, existsb (bytes_eqb a) l = true <-> In a l.
Proof.
  intros a l. rewrite existsb_exists. split.
  - intros (x & I & E). destruct (bytes_eqb_spec a x); [subst; assumption|discriminate].
  - intros I. exists a. split; [assumption|apply bytes_eqb_refl].
Qed.
Lemma existsb_bytes_false : forall a l, existsb (bytes_eqb a) l = false <-> ~ In a l.
Proof. intros a l. rewrite <- existsb_bytes. destruct (existsb (bytes_eqb a) l); split; intros; try congruence; tauto. Qed.
Lemma all_some_map : forall A (l : list (option A)) vs, all_some l = Some vs <-> l = map Some vs.
Proof.
  intros A l. induction l as [|[a|] l IH]; intros vs; cbn [all_some].
  - split; [intros [= <-]; reflexivity|]. destruct vs; [reflexivity|discriminate].
  - unfold obind. split.
    + destruct (all_some l) as [r|] eqn:E; [|discriminate]. intros [= <-]. cbn [map]. f_equal. apply IH. reflexivity.
    + destruct vs as [|v vs]; [discriminate|]. cbn [map]. intros [= -> E]. rewrite (proj2 (IH vs) E). reflexivity.
  - split; [discriminate|]. destruct vs; discriminate.
Qed.
Lemma opt_eqb_iff : forall a b, opt_eqb a b = true <-> a = b.
Proof.
  intros [a|] [b|]; cbn [opt_eqb]; try (split; congruence).
  destruct (bytes_eqb_spec a b); split; congruence.
Qed.
Lemma quot_two_thirds : forall n s, 0 <= n -> 0 <= s -> (s <=? Z.quot (n * 2) 3) = negb (2 * n <? 3 * s).
Proof.
  intros n s Hn Hs. rewrite Z.quot_div_nonneg by lia. pose proof (Z.div_mod (n * 2) 3). pose proof (Z.mod_pos_bound (n * 2) 3).
  destruct (2 * n <? 3 * s) eqn:E; cbn [negb]; lia.
Qed.
Lemma mta_add_height : forall H m h m', mta_add H m h = Some m' -> j_height m' = j_height m + 1.
Proof.
  intros H m h m' E. unfold mta_add, obind in E. destruct (putCache m h) as [m1|] eqn:EP; [|discriminate].
  assert (E1 : j_height m1 = j_height m).
  { unfold putCache in EP. destruct (isCacheEnabled m); [|congruence]. destruct (j_cache m) as [c|]; [|discriminate]. destruct (j_cacheIdx m) as [i|]; [|discriminate].
    destruct ((0 <=? i) && (i <? zlen c)); [|discriminate]. injection EP as <-. reflexivity. }
  destruct (j_height m1 =? j_offset m1).
  - injection E as <-. cbn [j_height]. lia.
  - destruct (add_loop H _ 0 (j_roots m1) h) as [y|]; [|discriminate]. injection E as <-. cbn [j_height]. lia.
Qed.

Section CHAIN.
Context (H : list Z -> list Z) (recover : list Z -> list Z -> option (list Z)).

Lemma vote_bytes_precommit : forall height round block part time, vote_bytes (VoteMsg height round 1 (Some block) part time) = precommit height round block part time.
Proof. intros. unfold vote_bytes, precommit. cbn [vm_height vm_round vm_type vm_block vm_part vm_time rnull]. destruct part; reflexivity. Qed.

Definition vote_of (height round : Z) (block : list Z) (part : option partset) (v : ivote) (a : list Z) : Prop :=
  exists sig, iv_sig v = Some sig /\ recover (H (precommit height round block part (iv_time v))) sig = Some a.
Lemma count_votes_iff : forall vals height round block part vs seen out, NoDup seen -> incl seen vals ->
  (M_JIbmv.count_votes H recover vals (fun t => vote_bytes (VoteMsg height round 1 (Some block) part t)) vs seen = Ok out <->
   exists voters, out = seen ++ voters /\ NoDup out /\ incl out vals /\ Forall2 (vote_of height round block part) vs voters).
Proof.
  intros vals height round block part vs. induction vs as [|v vs IH]; intros seen out ND IN; cbn [M_JIbmv.count_votes].
  - split.
    + intros [= <-]. exists []. rewrite app_nil_r. auto.
    + intros (voters & -> & _ & _ & F). inversion F. rewrite app_nil_r. reflexivity.
  - rewrite vote_bytes_precommit. split.
    + intros E. destruct (iv_sig v) as [sig|] eqn:ES; cbn [obind of_option rbind] in E; [|discriminate].
      destruct (recover (H (precommit height round block part (iv_time v))) sig) as [a|] eqn:ER; cbn [of_option rbind] in E; [|discriminate].
      destruct (existsb (bytes_eqb a) vals) eqn:E1; cbn [negb] in E; [|discriminate]. apply existsb_bytes in E1.
      destruct (existsb (bytes_eqb a) seen) eqn:E2; [discriminate|]. apply existsb_bytes_false in E2.
      apply IH in E.
      * destruct E as (voters & -> & A & B & C). exists (a :: voters). rewrite <- app_assoc in *. split; [reflexivity|]. split; [assumption|]. split; [assumption|].
        constructor; [|assumption]. exists sig. auto.
      * apply NoDup_app_snoc; assumption.
      * intros x Hx. apply in_app_iff in Hx. destruct Hx as [Hx|[<-|[]]]; auto.
    + intros (voters & -> & A & B & C). inversion C as [|? a ? vs' Ha C']; subst. destruct Ha as (sig & ES & ER). rewrite ES. cbn [obind]. rewrite ER. cbn [of_option rbind].
      assert (I1 : In a vals) by (apply B; apply in_app_iff; right; left; reflexivity). apply existsb_bytes in I1. rewrite I1. cbn [negb].
      assert (I2 : ~ In a seen). { intros I. apply NoDup_remove_2 in A. apply A. apply in_app_iff. auto. } apply existsb_bytes_false in I2. rewrite I2.
      apply IH.
      * apply NoDup_app_snoc; [assumption|]. apply existsb_bytes_false. assumption.
      * intros x Hx. apply in_app_iff in Hx. destruct Hx as [Hx|[<-|[]]]; [auto|]. apply existsb_bytes. assumption.
      * exists vs'. rewrite <- app_assoc. auto.
Qed.
Lemma verifyVotes_iff : forall votes height block vals, verifyVotes H recover votes height block vals = Ok tt <-> exists vs, votes = Some vs /\ quorum H recover vals height block vs.
Proof.
  intros votes height block vals. unfold verifyVotes. destruct votes as [vs|]; [|split; [discriminate|intros (vs & [=] & _)]].
  pose proof (zlen_nonneg _ vals). split.
  - intros E. exists vs. split; [reflexivity|].
    destruct (M_JIbmv.count_votes H recover vals (fun t => vote_bytes (VoteMsg height (is_round vs) 1 (Some block) (is_part vs) t)) (is_items vs) []) as [seen| |] eqn:EC; cbn [rbind] in E; try discriminate.
    apply count_votes_iff in EC; [|constructor|intros x []]. destruct EC as (voters & -> & A & B & C). cbn [app] in *. pose proof (zlen_nonneg _ voters).
    rewrite quot_two_thirds in E by lia. destruct (2 * zlen vals <? 3 * zlen voters) eqn:EQ; cbn [negb] in E; [|discriminate].
    exists voters. split; [assumption|]. split; [assumption|]. split; [lia|exact C].
  - intros (vs' & [= <-] & voters & A & B & Q & C).
    rewrite (proj2 (count_votes_iff vals height (is_round vs) block (is_part vs) (is_items vs) [] voters (NoDup_nil _) ltac:(intros x []))).
    + cbn [rbind]. pose proof (zlen_nonneg _ voters). rewrite quot_two_thirds by lia. replace (2 * zlen vals <? 3 * zlen voters) with true by lia. reflexivity.
    + exists voters. auto.
Qed.

Lemma verifyBlockUpdate_iff : forall mta vals u mta' vals' vh',
  verifyBlockUpdate H recover (mta, vals, H (validator_list vals)) u = Ok (mta', vals', vh') <->
  exists u' b, u = Some u' /\ certified H recover vals (j_height mta + 1) u' b vals' /\ mta_add H mta b = Some mta' /\ vh' = H (validator_list vals').
Proof.
  intros mta vals u mta' vals' vh'. unfold verifyBlockUpdate. destruct u as [u|]; [|split; [discriminate|intros (u' & b & [=] & _)]]. cbn [obind of_option].
  destruct (iu_header u) as [h|] eqn:EH; cbn [of_option rbind].
  2: split; [discriminate|intros (u' & b & [= <-] & (h & vs & E & _) & _); congruence].
  destruct (Z.eqb_spec (j_height mta + 1) (ih_height h)) as [EQ|NE].
  - set (b := H (header_bytes h)). split.
    + intros E. destruct (verifyVotes H recover (iu_votes u) (ih_height h) b vals) as [[]| |] eqn:EV; cbn [rbind] in E; try discriminate.
      apply verifyVotes_iff in EV. destruct EV as (vs & EV & Q).
      destruct (opt_eqb (Some (H (validator_list vals))) (ih_nextVals h)) eqn:EN; cbn [rbind fst snd] in E.
      * apply opt_eqb_iff in EN. destruct (mta_add H mta b) as [m1|] eqn:EA; cbn [of_option rbind] in E; [|discriminate]. injection E as <- <- <-.
        exists u, b. split; [reflexivity|]. split; [|auto]. exists h, vs. rewrite EQ. split; [assumption|]. split; [assumption|]. split; [reflexivity|]. split; [reflexivity|].
        split; [assumption|]. split; [congruence|]. rewrite bytes_eqb_refl. reflexivity.
      * destruct (iu_next u) as [next|] eqn:EX; cbn [rbind] in E; [|discriminate]. unfold validators_bytes in E. destruct (all_some next) as [nv|] eqn:ES; cbn [obind of_option rbind] in E; [|discriminate].
        destruct (opt_eqb (Some (H (rlp_write (validators_item nv)))) (ih_nextVals h)) eqn:EM; cbn [rbind fst snd] in E; [|discriminate]. apply opt_eqb_iff in EM.
        destruct (mta_add H mta b) as [m1|] eqn:EA; cbn [of_option rbind] in E; [|discriminate]. injection E as <- <- <-.
        exists u, b. split; [reflexivity|]. split; [|auto]. exists h, vs. rewrite EQ. split; [assumption|]. split; [assumption|]. split; [reflexivity|]. split; [reflexivity|].
        split; [assumption|]. split; [symmetry; exact EM|]. destruct (bytes_eqb_spec (H (validator_list vals)) (H (validator_list nv))) as [EB|_].
        -- exfalso. change (rlp_write (validators_item nv)) with (validator_list nv) in EM. rewrite <- EM, <- EB in EN. cbn [opt_eqb] in EN. rewrite bytes_eqb_refl in EN. discriminate.
        -- apply all_some_map in ES. congruence.
    + intros (u' & b' & [= <-] & (h' & vs & E1 & E2 & E3 & E4 & Q & E5 & E6) & EA & ->). assert (h' = h) by congruence. subst h'. fold b in E4. subst b'.
      rewrite EQ in Q. rewrite (proj2 (verifyVotes_iff (iu_votes u) (ih_height h) b vals)) by eauto. cbn [rbind]. rewrite E5. cbn [opt_eqb].
      destruct (bytes_eqb (H (validator_list vals)) (H (validator_list vals'))) eqn:EB.
      * subst vals'. cbn [rbind fst snd]. rewrite EA. reflexivity.
      * rewrite E6. unfold validators_bytes. rewrite (proj2 (all_some_map _ (map Some vals') vals') eq_refl). cbn [obind of_option rbind opt_eqb].
        change (rlp_write (validators_item vals')) with (validator_list vals'). rewrite bytes_eqb_refl. cbn [rbind fst snd]. rewrite EA. reflexivity.
  - split.
    + intros E. destruct (j_height mta + 1 <? ih_height h); discriminate.
    + intros (u' & b' & [= <-] & (h' & vs & E1 & E2 & E3 & _) & _). exfalso. assert (h' = h) by congruence. subst h'. lia.
Qed.
Lemma verifyBlockUpdates_iff : forall us mta vals mta' vals' vh',
  verifyBlockUpdates H recover (mta, vals, H (validator_list vals)) us = Ok (mta', vals', vh') <->
  exists us' bs, us = map Some us' /\ chain H recover (j_height mta) vals us' bs vals' /\ mta_adds H mta bs = Some mta' /\ vh' = H (validator_list vals').
Proof.
  induction us as [|u us IH]; intros mta vals mta' vals' vh'; cbn [verifyBlockUpdates].
  - split.
    + intros E. injection E as <- <- <-. exists [], []. split; [reflexivity|]. split; [constructor|]. split; reflexivity.
    + intros (us' & bs & E & C & A & ->). destruct us'; [|discriminate]. inversion C; subst. cbn [mta_adds] in A. congruence.
  - split.
    + intros E. destruct (verifyBlockUpdate H recover (mta, vals, H (validator_list vals)) u) as [[[m1 v1] h1]| |] eqn:E1; cbn [rbind] in E; try discriminate.
      apply verifyBlockUpdate_iff in E1. destruct E1 as (u' & b & -> & C & A & ->). pose proof (mta_add_height _ _ _ _ A) as HH.
      apply IH in E. destruct E as (us' & bs & -> & CH & AA & ->). exists (u' :: us'), (b :: bs). split; [reflexivity|]. split; [|split; [|reflexivity]].
      * rewrite HH in CH. econstructor; eassumption.
      * cbn [mta_adds]. rewrite A. exact AA.
    + intros (us' & bs & E & C & A & ->). destruct us' as [|u' us']; [discriminate|]. injection E as -> ->. inversion C as [|? ? ? b v1 ? bs' ? C1 C2]; subst.
      cbn [mta_adds] in A. unfold obind in A. destruct (mta_add H mta b) as [m1|] eqn:EA; [|discriminate]. pose proof (mta_add_height _ _ _ _ EA) as HH.
      rewrite (proj2 (verifyBlockUpdate_iff mta vals (Some u') m1 v1 (H (validator_list v1)))).
      * cbn [rbind]. apply IH. exists us', bs'. split; [reflexivity|]. rewrite HH. auto.
      * exists u', b. auto.
Qed.

(** ** Chains *)
Lemma chain_app : forall us1 us2 h vals bs1 bs2 v1 v2, chain H recover h vals us1 bs1 v1 -> chain H recover (h + zlen us1) v1 us2 bs2 v2 ->
  chain H recover h vals (us1 ++ us2) (bs1 ++ bs2) v2.
Proof.
  induction us1 as [|u us1 IH]; intros us2 h vals bs1 bs2 v1 v2 C1 C2; inversion C1; subst; cbn [app].
  - change (zlen (@nil iupdate)) with 0 in C2. rewrite Z.add_0_r in C2. exact C2.
  - econstructor; [eassumption|]. eapply IH; [eassumption|]. rewrite zlen_cons in C2. replace (h + 1 + zlen us1) with (h + (zlen us1 + 1)) by lia. exact C2.
Qed.
Lemma chain_length : forall us h vals bs v, chain H recover h vals us bs v -> length us = length bs.
Proof. intros us h vals bs v C. induction C; cbn [length]; congruence. Qed.
Lemma chain_32 : forall us h vals bs v, digest32 H -> chain H recover h vals us bs v -> all32 bs.
Proof. intros us h vals bs v D C. induction C as [|? ? ? ? ? ? ? ? (hd & vs & _ & _ & _ & -> & _)]; constructor; auto. Qed.
Lemma chain_In : forall us h vals bs v b, chain H recover h vals us bs v -> In b bs -> exists u hd, In u us /\ iu_header u = Some hd /\ b = H (header_bytes hd).
Proof.
  intros us h vals bs v b C. induction C as [|h vals u b1 v1 us bs v2 (hd & vs & E1 & _ & _ & E2 & _) C IH]; intros I; [destruct I|].
  destruct I as [<-|I]; [exists u, hd; cbn [In]; auto|]. destruct (IH I) as (u' & hd' & I' & E'). exists u', hd'. cbn [In]. tauto.
Qed.
Lemma mta_adds_app : forall l1 l2 m m', mta_adds H m l1 = Some m' -> mta_adds H m (l1 ++ l2) = mta_adds H m' l2.
Proof.
  induction l1 as [|x l1 IH]; intros l2 m m' E; cbn [mta_adds app] in *; [congruence|]. unfold obind in *. destruct (mta_add H m x); [|discriminate]. eauto.
Qed.
Lemma mta_adds_height : forall l m m', mta_adds H m l = Some m' -> j_height m' = j_height m + zlen l.
Proof.
  induction l as [|x l IH]; intros m m' E; cbn [mta_adds] in E; [injection E as <-; unfold zlen; cbn [length]; lia|]. unfold obind in E.
  destruct (mta_add H m x) as [m1|] eqn:EA; [|discriminate]. apply IH in E. apply mta_add_height in EA. rewrite zlen_cons. lia.
Qed.

(** two quorums meet *)
Lemma quorums_meet : forall vals height b b' vs vs', quorum H recover vals height b vs -> quorum H recover vals height b' vs' -> double_voters H recover vals height b b'.
Proof.
  intros vals height b b' vs vs' (A & NA & IA & QA & FA) (B & NB & IB & QB & FB).
  set (I := filter (fun a => existsb (bytes_eqb a) B) A). set (R := filter (fun a => negb (existsb (bytes_eqb a) B)) A).
  assert (L : length A = (length I + length R)%nat). { unfold I, R. clear. induction A as [|x A IH]; cbn [filter]; [reflexivity|]. destruct (existsb (bytes_eqb x) B); cbn [negb length]; lia. }
  assert (NR : NoDup (R ++ B)).
  { clear L. unfold R. induction A as [|x A IHA]; cbn [filter]; [exact NB|]. inversion NA; subst. assert (IA' : incl A vals) by (intros y Hy; apply IA; right; assumption).
    assert (N' : NoDup (filter (fun a => negb (existsb (bytes_eqb a) B)) A ++ B)).
    { clear IHA. assert (G : forall l, NoDup l -> NoDup (filter (fun a => negb (existsb (bytes_eqb a) B)) l ++ B)).
      { induction l as [|y l IHl]; intros Nl; cbn [filter]; [exact NB|]. inversion Nl; subst. destruct (existsb (bytes_eqb y) B) eqn:E; cbn [negb app]; [auto|].
        constructor; [|auto]. intros Hy. apply in_app_iff in Hy. destruct Hy as [Hy|Hy]; [apply filter_In in Hy; tauto|]. apply existsb_bytes in Hy. congruence. }
      apply G. assumption. }
    destruct (existsb (bytes_eqb x) B) eqn:E; cbn [negb app]; [assumption|]. constructor; [|assumption].
    intros Hy. apply in_app_iff in Hy. destruct Hy as [Hy|Hy]; [apply filter_In in Hy; tauto|]. apply existsb_bytes in Hy. congruence. }
  assert (LR : (length (R ++ B) <= length vals)%nat).
  { apply NoDup_incl_length; [assumption|]. intros x Hx. apply in_app_iff in Hx. destruct Hx as [Hx|Hx]; [|auto]. unfold R in Hx. apply filter_In in Hx. apply IA. tauto. }
  rewrite app_length in LR.
  exists I. split; [apply NoDup_filter; assumption|]. split; [intros x Hx; apply filter_In in Hx; apply IA; tauto|]. split; [unfold zlen in *; lia|].
  apply Forall_forall. intros x Hx. apply filter_In in Hx. destruct Hx as [HA HBx]. apply existsb_bytes in HBx.
  assert (G : forall b0 vs0 l, Forall2 (fun v a => exists sig, iv_sig v = Some sig /\ recover (H (precommit height (is_round vs0) b0 (is_part vs0) (iv_time v))) sig = Some a) (is_items vs0) l -> In x l -> voted_for H recover height b0 x).
  { intros b0 vs0 l F. generalize dependent l. generalize (is_items vs0) as items. intros items l F. induction F as [|v a items l Ha F IH]; intros Hin; [destruct Hin|].
    destruct Hin as [->|Hin]; [|auto]. destruct Ha as (sig & _ & ER). exists (is_round vs0), (is_part vs0), (iv_time v), sig. exact ER. }
  split; eapply G; eassumption.
Qed.
End CHAIN.

(** ** Forks *)
Section FORK.
Context (H : list Z -> list Z) (recover : list Z -> list Z -> option (list Z)).
Lemma vals_inj : forall v v', proper_vals v -> proper_vals v' -> H (validator_list v) = H (validator_list v') -> v = v' \/ collision H.
Proof.
  intros v v' (B & S) (B' & S') E. destruct (bytes_eqb_spec (validator_list v) (validator_list v')) as [E2|N]; [|right; exists (validator_list v), (validator_list v'); auto].
  left. unfold validator_list in E2. apply enc_inj in E2; [| apply strings_ok; assumption|apply strings_ok; assumption|exact S'].
  injection E2 as E2. clear - E2. revert v' E2. induction v as [|a v IH]; intros [|b v'] E; cbn [map] in E; try discriminate; [reflexivity|].
  injection E as -> E. f_equal. apply IH; assumption.
Qed.
Lemma header_next_inj : forall h h', rlp_ok (iheader_item h) -> short (header_bytes h) -> rlp_ok (iheader_item h') -> short (header_bytes h') ->
  header_bytes h = header_bytes h' -> ih_nextVals h = ih_nextVals h'.
Proof.
  intros h h' O S O' S' E. apply enc_inj in E; try assumption. unfold iheader_item in E. injection E as _ _ _ _ _ _ E _ _ _ _.
  destruct (ih_nextVals h), (ih_nextVals h'); cbn [rnull] in E; congruence.
Qed.
Lemma certified_next : forall vals h u b v u' v', proper_vals vals -> proper u -> proper u' ->
  certified H recover vals h u b v -> certified H recover vals h u' b v' -> (v = v' /\ proper_vals v) \/ collision H.
Proof.
  intros vals h u b v u' v' PV (PH & PN) (PH' & PN') (hd & vs & E1 & E2 & E3 & E4 & Q & E5 & E6) (hd' & vs' & E1' & E2' & E3' & E4' & Q' & E5' & E6').
  destruct (PH _ E1) as [O S]. destruct (PH' _ E1') as [O' S'].
  destruct (bytes_eqb_spec (header_bytes hd) (header_bytes hd')) as [E|N]; [|right; exists (header_bytes hd), (header_bytes hd'); split; [assumption|congruence]].
  pose proof (header_next_inj _ _ O S O' S' E) as EN. rewrite E5, E5' in EN. injection EN as EN.
  assert (P1 : proper_vals v). { destruct (bytes_eqb (H (validator_list vals)) (H (validator_list v))); [subst; assumption|eauto]. }
  assert (P2 : proper_vals v'). { destruct (bytes_eqb (H (validator_list vals)) (H (validator_list v'))); [subst; assumption|eauto]. }
  destruct (vals_inj v v' P1 P2 EN); auto.
Qed.
Lemma no_fork : forall us us' h vals bs bs' v v', proper_vals vals -> Forall proper us -> Forall proper us' ->
  chain H recover h vals us bs v -> chain H recover h vals us' bs' v' ->
  begins bs bs' \/ begins bs' bs \/ collision H \/
  exists n us0 bs0 vals0 b b', (n < length us)%nat /\ (n < length us')%nat /\ us0 = firstn n us /\ bs0 = firstn n bs /\ bs0 = firstn n bs' /\ chain H recover h vals us0 bs0 vals0 /\
    nth_error bs n = Some b /\ nth_error bs' n = Some b' /\ b <> b' /\ double_voters H recover vals0 (h + Z.of_nat n + 1) b b'.
Proof.
  induction us as [|u us IH]; intros us' h vals bs bs' v v' PV PU PU' C C'.
  - inversion C; subst. left. exists bs'. reflexivity.
  - destruct us' as [|u' us']; [inversion C'; subst; right; left; exists bs; reflexivity|].
    inversion C as [|? ? ? b v1 ? bs1 ? C1 C2]; subst. inversion C' as [|? ? ? b' v1' ? bs1' ? C1' C2']; subst. inversion PU as [|? ? PA PB]; subst. inversion PU' as [|? ? PA' PB']; subst.
    destruct (bytes_eqb_spec b b') as [E|N].
    + subst b'. destruct (certified_next _ _ _ _ _ _ _ PV PA PA' C1 C1') as [[<- P1]|CO]; [|auto].
      destruct (IH us' _ _ _ _ _ _ P1 PB PB' C2 C2') as [(r & ->)|[(r & ->)|[CO|(n & us0 & bs0 & vals0 & c & c' & L1 & L2 & A1 & A2 & A3 & CC & N1 & N2 & NE & D)]]].
      * left. exists r. reflexivity.
      * right. left. exists r. reflexivity.
      * auto.
      * right. right. right. exists (S n), (u :: us0), (b :: bs0), vals0, c, c'. cbn [length]. split; [lia|]. split; [lia|]. cbn [firstn nth_error]. split; [congruence|]. split; [congruence|]. split; [congruence|].
        split; [econstructor; eassumption|]. split; [assumption|]. split; [assumption|]. split; [assumption|].
        replace (h + Z.of_nat (S n) + 1) with (h + 1 + Z.of_nat n + 1) by lia. assumption.
    + right. right. right. exists 0%nat, [], [], vals, b, b'. cbn [length firstn nth_error]. split; [lia|]. split; [lia|]. split; [reflexivity|]. split; [reflexivity|]. split; [reflexivity|].
      split; [constructor|]. split; [reflexivity|]. split; [reflexivity|]. split; [assumption|]. change (Z.of_nat 0) with 0. rewrite Z.add_0_r.
      destruct C1 as (hd & vs & _ & _ & _ & _ & Q & _). destruct C1' as (hd' & vs' & _ & _ & _ & _ & Q' & _). eapply quorums_meet; eassumption.
Qed.
End FORK.

(** ** Events *)
Lemma str_index_paren : forall args, str_index (str "Message" ++ 40 :: args) (str "(") = Some 7%nat.
Proof. intros args. reflexivity. Qed.
Lemma index_split : forall s i, str_index s (str "(") = Some i -> s = firstn i s ++ 40 :: skipn (S i) s.
Proof.
  induction s as [|c s IH]; intros i E; cbn [str_index] in E; [discriminate|].
  change (str "(") with [40] in E. cbn [has_prefix] in E. destruct (Z.eqb_spec 40 c) as [<-|N].
  - destruct s; cbn [andb] in E; injection E as <-; reflexivity.
  - cbn [andb] in E. change [40] with (str "(") in E. destruct (str_index s (str "(")) as [j|]; [|discriminate]. injection E as <-. cbn [firstn skipn app]. f_equal. apply IH. reflexivity.
Qed.
(** an event the contract can read without an exception *)
Definition readable (show : list Z -> list Z) (account : list Z) (e : evlog) : Prop :=
  exists a, el_addr e = Some a /\ (show a = account -> exists name args rest, el_indexed e = (name ++ 40 :: args) :: rest /\ ~ In 40 name /\
    (name = str "Message" -> exists next c num more m more', rest = next :: (c :: num) :: more /\ el_data e = m :: more')).
Lemma index_first : forall name args, ~ In 40 name -> str_index (name ++ 40 :: args) (str "(") = Some (length name).
Proof.
  induction name as [|c name IH]; intros args N.
  - cbn [app length]. reflexivity.
  - cbn [app length str_index]. change (str "(") with [40]. cbn [has_prefix]. destruct (Z.eqb_spec 40 c) as [<-|_]; [exfalso; apply N; left; reflexivity|]. cbn [andb].
    change [40] with (str "("). rewrite IH; [reflexivity|]. intros I. apply N. right. assumption.
Qed.
Lemma index_not_in : forall s i, str_index s (str "(") = Some i -> ~ In 40 (firstn i s).
Proof.
  induction s as [|c s IH]; intros i E; cbn [str_index] in E; [discriminate|].
  change (str "(") with [40] in E. cbn [has_prefix] in E. destruct (Z.eqb_spec 40 c) as [<-|N].
  - destruct s; cbn [andb] in E; injection E as <-; cbn [firstn In]; tauto.
  - cbn [andb] in E. change [40] with (str "(") in E. destruct (str_index s (str "(")) as [j|]; [|discriminate]. injection E as <-. cbn [firstn In]. intros [->|I]; [congruence|]. exact (IH j eq_refl I).
Qed.

Lemma one_event : forall show account bmc e a, el_addr e = Some a -> show a = account ->
  match toMessageEvent e with
  | Ok (Some m) => readable show account e /\ (if bytes_eqb (me_next m) bmc then message_event show account bmc e (me_seq m) (me_msg m) /\ forall k x, message_event show account bmc e k x -> k = me_seq m /\ x = me_msg m
                   else forall k x, ~ message_event show account bmc e k x)
  | Ok None => readable show account e /\ forall k x, ~ message_event show account bmc e k x
  | _ => ~ readable show account e
  end.
Proof.
  intros show account bmc e a EA ES. unfold toMessageEvent, methodSignature.
  destruct (el_indexed e) as [|s rest] eqn:EI; cbn [of_option rbind].
  { intros (a' & E' & X). assert (a' = a) by congruence. subst a'. destruct (X ES) as (name & args & rest & E & _). congruence. }
  destruct (str_index s (str "(")) as [i|] eqn:EX; cbn [of_option rbind].
  2:{ intros (a' & E' & X). assert (a' = a) by congruence. subst a'. destruct (X ES) as (name & args & rest' & E & N & _). assert (s = name ++ 40 :: args) by congruence. subst s. rewrite index_first in EX by assumption. discriminate. }
  pose proof (index_split _ _ EX) as SP. pose proof (index_not_in _ _ EX) as NI.
  assert (RD : firstn i s <> str "Message" -> readable show account e).
  { intros N. exists a. split; [assumption|]. intros _. exists (firstn i s), (skipn (S i) s), rest. rewrite <- SP. split; [assumption|]. split; [assumption|]. congruence. }
  destruct (bytes_eqb_spec (firstn i s) (str "Message")) as [EN|NN].
  2:{ split; [auto|]. intros k x (a' & args & num & more & more' & _ & _ & _ & E & _). assert (s = str "Message" ++ 40 :: args) by congruence. subst s. rewrite str_index_paren in EX. injection EX as <-.
      apply NN. reflexivity. }
  assert (ER : readable show account e -> exists next c num more m more', rest = next :: (c :: num) :: more /\ el_data e = m :: more').
  { intros (a' & E' & X). assert (a' = a) by congruence. subst a'. destruct (X ES) as (name & args & rest' & E & N & M). assert (E1 : s = name ++ 40 :: args) by congruence. assert (rest' = rest) by congruence. subst rest'.
    apply M. rewrite E1 in EX, EN. rewrite index_first in EX by assumption. injection EX as <-. rewrite firstn_app, firstn_all, Nat.sub_diag in EN. cbn [firstn] in EN. rewrite app_nil_r in EN. exact EN. }
  destruct rest as [|next rest]; [intros R; destruct (ER R) as (? & ? & ? & ? & ? & ? & X & _); discriminate|].
  destruct rest as [|num rest]; [intros R; destruct (ER R) as (? & ? & ? & ? & ? & ? & X & _); discriminate|].
  destruct num as [|c num]; [intros R; destruct (ER R) as (? & ? & ? & ? & ? & ? & X & _); discriminate|].
  destruct (el_data e) as [|m ms] eqn:ED; [intros R; destruct (ER R) as (? & ? & ? & ? & ? & ? & _ & X); discriminate|].
  cbn [me_next me_seq me_msg]. split.
  { exists a. split; [assumption|]. intros _. exists (firstn i s), (skipn (S i) s), (next :: (c :: num) :: rest). rewrite <- SP. split; [assumption|]. split; [assumption|].
    intros _. exists next, c, num, rest, m, ms. auto. }
  rewrite EN in SP. destruct (bytes_eqb_spec next bmc) as [->|NB].
  - split.
    + exists a, (skipn (S i) s), (c :: num), rest, ms. split; [assumption|]. split; [assumption|]. split; [discriminate|]. split; [rewrite EI; f_equal; exact SP|]. auto.
    + intros k x (a' & args & num' & more & more' & _ & _ & _ & E & <- & E2). split; congruence.
  - intros k x (a' & args & num' & more & more' & _ & _ & _ & E & _). apply NB. congruence.
Qed.
Lemma take_events_iff : forall show account bmc es seq msgs out,
  take_events show account bmc es seq msgs = Ok out <->
  Forall (readable show account) es /\ exists ms, messages show account bmc es seq ms /\ out = (seq + zlen ms, msgs ++ ms).
Proof.
  intros show account bmc es. induction es as [|e es IH]; intros seq msgs out; cbn [take_events].
  - split.
    + intros E. injection E as <-. split; [constructor|]. exists []. split; [constructor|]. rewrite app_nil_r. change (zlen (@nil (list Z))) with 0. rewrite Z.add_0_r. reflexivity.
    + intros (_ & ms & M & ->). inversion M; subst. rewrite app_nil_r. change (zlen (@nil (list Z))) with 0. rewrite Z.add_0_r. reflexivity.
  - destruct (el_addr e) as [a|] eqn:EA; cbn [of_option rbind].
    2:{ split; [discriminate|]. intros (F & _). inversion F as [|? ? (a & E & _)]; congruence. }
    assert (SKIP : (forall k m, ~ message_event show account bmc e k m) -> readable show account e ->
       (take_events show account bmc es seq msgs = Ok out <-> Forall (readable show account) (e :: es) /\ exists ms, messages show account bmc (e :: es) seq ms /\ out = (seq + zlen ms, msgs ++ ms))).
    { intros NM R. rewrite IH. split.
      - intros (F & ms & M & E). split; [constructor; assumption|]. exists ms. split; [constructor; assumption|assumption].
      - intros (F & ms & M & E). inversion F; subst. split; [assumption|]. inversion M as [|? ? ? ? N1 M1|? ? ? ? ? M0 M1]; subst; [exists ms; auto|]. exfalso. eapply NM. eassumption. }
    destruct (bytes_eqb_spec account (show a)) as [E1|N1]; cbn [negb].
    + pose proof (one_event show account bmc e a EA (eq_sym E1)) as O. destruct (toMessageEvent e) as [[m|]| |] eqn:ET; cbn [rbind].
      * destruct O as [R O]. destruct (bytes_eqb (me_next m) bmc); [|apply SKIP; assumption]. destruct O as [O1 O2].
        destruct (Z.ltb_spec seq (me_seq m)).
        { split; [discriminate|]. intros (F & ms & M & _). inversion M as [|? ? ? ? N M1|? ? ? ? ? M0 M1]; subst; [exfalso; eapply N; eassumption|]. apply O2 in M0. lia. }
        destruct (Z.ltb_spec (me_seq m) seq).
        { split; [discriminate|]. intros (F & ms & M & _). inversion M as [|? ? ? ? N M1|? ? ? ? ? M0 M1]; subst; [exfalso; eapply N; eassumption|]. apply O2 in M0. lia. }
        assert (ES : me_seq m = seq) by lia. rewrite ES in *. rewrite IH. split.
        -- intros (F & ms & M & ->). split; [constructor; assumption|]. exists (me_msg m :: ms). split; [apply ms_next; assumption|]. rewrite zlen_cons, <- app_assoc. cbn [app]. f_equal. lia.
        -- intros (F & ms & M & ->). inversion F; subst. split; [assumption|]. inversion M as [|? ? ? ? N M1|? ? ? m' ms' M0 M1]; subst; [exfalso; eapply N; eassumption|].
           apply O2 in M0. destruct M0 as [_ ->]. exists ms'. split; [assumption|]. rewrite zlen_cons, <- app_assoc. cbn [app]. f_equal. lia.
      * destruct O. apply SKIP; assumption.
      * split; [discriminate|]. intros (F & _). inversion F; subst. contradiction.
      * split; [discriminate|]. intros (F & _). inversion F; subst. contradiction.
    + apply SKIP.
      * intros k m (a' & args & num & more & more' & E & E' & _). congruence.
      * exists a. split; [assumption|]. congruence.
Qed.
Lemma messages_app : forall show account bmc es1 es2 n ms1 ms2, messages show account bmc es1 n ms1 -> messages show account bmc es2 (n + zlen ms1) ms2 ->
  messages show account bmc (es1 ++ es2) n (ms1 ++ ms2).
Proof.
  intros show account bmc es1 es2 n ms1 ms2 M. induction M as [n|e es n ms N M IH|e es n m ms E M IH]; intros M2; cbn [app].
  - change (zlen (@nil (list Z))) with 0 in M2. rewrite Z.add_0_r in M2. exact M2.
  - constructor; auto.
  - apply ms_next; [assumption|]. apply IH. rewrite zlen_cons in M2. replace (n + 1 + zlen ms) with (n + (zlen ms + 1)) by lia. exact M2.
Qed.
Lemma messages_one : forall show account bmc es n ms ms', messages show account bmc es n ms -> messages show account bmc es n ms' -> ms = ms'.
Proof.
  intros show account bmc es n ms ms' M. revert ms'. induction M as [n|e es n ms N M IH|e es n m ms E M IH]; intros ms' M'.
  - inversion M'. reflexivity.
  - inversion M' as [|? ? ? ? N1 M1|? ? ? ? ? M0 M1]; subst; [auto|]. exfalso. eapply N. eassumption.
  - inversion M' as [|? ? ? ? N1 M1|? ? ? m' ? M0 M1]; subst; [exfalso; eapply N1; eassumption|]. f_equal; [|auto].
    destruct E as (a & args & num & more & more' & _ & _ & _ & E1 & _ & E2). destruct M0 as (a0 & args0 & num0 & more0 & more0' & _ & _ & _ & E10 & _ & E20). congruence.
Qed.
Lemma take_receipts_messages : forall H show root account bmc ps seq msgs out,
  take_receipts H show root account bmc ps seq msgs = Ok out ->
  exists logs ms, Forall2 (fun p es => proveReceiptProof H p root = Ok es) ps logs /\ messages show account bmc (concat logs) seq ms /\ out = (seq + zlen ms, msgs ++ ms).
Proof.
  intros H show root account bmc ps. induction ps as [|p ps IH]; intros seq msgs out E; cbn [take_receipts] in E.
  - injection E as <-. exists [], []. split; [constructor|]. split; [constructor|]. rewrite app_nil_r. change (zlen (@nil (list Z))) with 0. rewrite Z.add_0_r. reflexivity.
  - destruct (proveReceiptProof H p root) as [es| |] eqn:EP; cbn [rbind] in E; try discriminate.
    destruct (take_events show account bmc es seq msgs) as [x| |] eqn:ET; cbn [rbind] in E; try discriminate.
    apply take_events_iff in ET. destruct ET as (_ & ms & M & ->). cbn [fst snd] in E. apply IH in E. destruct E as (logs & ms2 & F & M2 & ->).
    exists (es :: logs), (ms ++ ms2). split; [constructor; assumption|]. split; [cbn [concat]; apply messages_app; assumption|].
    rewrite <- app_assoc. f_equal. unfold zlen. rewrite app_length. lia.
Qed.
