(** Lemmas for the bridge verifiers. *)
From Coq Require Import String Ascii ZArith List Bool Lia.
From Coq Require Import ZifyBool.
From Verif Require Import Base L_Base M_IntConv M_Rlp M_Codec M_Wire M_SolRlp M_BtpAddr M_Bridge S_Bridge.
Import ListNotations.
Open Scope Z_scope.

Lemma takes_app : forall mine es es' n ms, takes mine n (es ++ es') ms <->
  exists m1 m2, ms = m1 ++ m2 /\ takes mine n es m1 /\ takes mine (n + zlen m1) es' m2.
Proof.
  intros mine es es'. induction es as [|e es IH]; intros n ms; cbn [app].
  - split.
    + intros T. exists [], ms. rewrite zlen_nil, Z.add_0_r. repeat split; [constructor|assumption].
    + intros (m1 & m2 & -> & T1 & T2). inversion T1; subst. rewrite zlen_nil, Z.add_0_r in T2. assumption.
  - split.
    + intros T. inversion T as [|? ? ? ? L T'|? ? ? ? L M T'|? ? ? ms' L M T']; subst.
      * apply IH in T' as (m1 & m2 & -> & T1 & T2). exists m1, m2. repeat split; [apply takes_old; assumption|assumption].
      * apply IH in T' as (m1 & m2 & -> & T1 & T2). exists m1, m2. repeat split; [apply takes_other; trivial|assumption].
      * apply IH in T' as (m1 & m2 & -> & T1 & T2). exists (be_msg e :: m1), m2. rewrite zlen_cons. repeat split; [apply takes_next; trivial|].
        replace (be_seq e + (zlen m1 + 1)) with (be_seq e + 1 + zlen m1) by lia. assumption.
    + intros (m1 & m2 & -> & T1 & T2). inversion T1 as [|? ? ? ? L T'|? ? ? ? L M T'|? ? ? ms' L M T']; subst.
      * apply takes_old; [assumption|]. apply IH. exists m1, m2. auto.
      * apply takes_other; trivial. apply IH. exists m1, m2. auto.
      * cbn [app]. apply takes_next; trivial. apply IH. exists ms', m2. rewrite zlen_cons in T2. replace (be_seq e + (zlen ms' + 1)) with (be_seq e + 1 + zlen ms') in T2 by lia. auto.
Qed.
Lemma takes_fun : forall mine n es m1 m2, takes mine n es m1 -> takes mine n es m2 -> m1 = m2.
Proof.
  intros mine n es m1 m2 T. revert m2. induction T as [n|n e es ms L T IH|n e es ms L M T IH|n e es ms L M T IH]; intros m2 T2; inversion T2; subst; auto; try lia; try contradiction.
  f_equal. auto.
Qed.
Lemma takes_picked : forall mine n es ms, takes mine n es ms ->
  exists picked, within picked es /\ ms = map be_msg picked /\ map be_seq picked = numbers n (length ms) /\ Forall mine picked.
Proof.
  intros mine n es ms T. induction T as [n|n e es ms L T (p & P1 & P2 & P3 & P4)|n e es ms L M T (p & P1 & P2 & P3 & P4)|n e es ms L M T (p & P1 & P2 & P3 & P4)].
  - exists []. repeat split; constructor.
  - exists p. repeat split; try assumption. constructor; assumption.
  - exists p. repeat split; try assumption. constructor; assumption.
  - exists (e :: p). cbn [map length numbers]. rewrite P2 at 1. repeat split; [constructor; assumption|rewrite L, P3; reflexivity|constructor; assumption].
Qed.
Lemma takes_bound : forall mine n es ms, takes mine n es ms ->
  Forall (fun e => be_seq e < n + zlen ms \/ (be_seq e = n + zlen ms /\ ~ mine e)) es.
Proof.
  intros mine n es ms T. induction T as [n|n e es ms L T IH|n e es ms L M T IH|n e es ms L M T IH]; constructor; pose proof (zlen_nonneg _ ms); try assumption; try lia.
  - destruct (Z.eq_dec (zlen ms) 0); [right; split; [lia|assumption]|left; lia].
  - rewrite zlen_cons. lia.
  - rewrite zlen_cons. revert IH. apply Forall_impl. intros x. replace (n + 1 + zlen ms) with (n + (zlen ms + 1)) by lia. auto.
Qed.
Lemma takes_nothing : forall mine n es, Forall (fun e => be_seq e < n \/ (be_seq e = n /\ ~ mine e)) es -> takes mine n es [].
Proof. intros mine n es F. induction F as [|e es [L|[L M]] F IH]; [constructor|apply takes_old; assumption|apply takes_other; assumption]. Qed.
Lemma takes_run : forall mine es n, map be_seq es = numbers n (length es) -> Forall mine es -> takes mine n es (map be_msg es).
Proof.
  intros mine es. induction es as [|e es IH]; intros n E F; [constructor|]. cbn [map length numbers] in *. injection E as E1 E2. inversion F as [|? ? F1 F2]; subst.
  apply takes_next; [reflexivity|assumption|]. apply IH; assumption.
Qed.
Lemma within_In : forall A (a b : list A) x, within a b -> In x a -> In x b.
Proof. intros A a b x W. induction W as [|y a b W IH|y a b W IH]; intros I; [assumption|right; auto|]. destruct I as [->|I]; [left; reflexivity|right; auto]. Qed.
Lemma numbers_In : forall k n x, In x (numbers n k) <-> n <= x < n + Z.of_nat k.
Proof.
  induction k as [|k IH]; intros n x; cbn [numbers In]; [lia|]. rewrite IH. lia.
Qed.
Lemma takes_no_gap : forall mine n es ms e k, takes mine n es ms -> In e es -> n <= k < be_seq e -> exists e', In e' es /\ mine e' /\ be_seq e' = k.
Proof.
  intros mine n es ms e k T I K. pose proof (takes_bound _ _ _ _ T) as B. rewrite Forall_forall in B. specialize (B e I).
  destruct (takes_picked _ _ _ _ T) as (p & P1 & P2 & P3 & P4). assert (N : In k (map be_seq p)).
  { rewrite P3. apply numbers_In. unfold zlen in B. lia. }
  apply in_map_iff in N as (e' & E & I'). exists e'. split; [eapply within_In; eassumption|]. split; [|assumption]. rewrite Forall_forall in P4. auto.
Qed.

(** ** Receipts *)
Lemma top_ge : forall rps h, h <= top_height h rps.
Proof. induction rps as [|r t IH]; intros h; cbn [top_height fold_right]; [lia|]. specialize (IH h). unfold top_height in IH. lia. Qed.
Lemma top_max : forall rps a b, top_height (Z.max a b) rps = Z.max a (top_height b rps).
Proof. induction rps as [|r t IH]; intros a b; cbn [top_height fold_right]; [lia|]. specialize (IH a b). unfold top_height in IH. rewrite IH. lia. Qed.
Lemma top_cons : forall r t h, top_height h (r :: t) = top_height (Z.max h (br_height r)) t.
Proof. intros r t h. rewrite Z.max_comm, top_max. reflexivity. Qed.
Lemma top_idem : forall rps h, top_height (top_height h rps) rps = top_height h rps.
Proof.
  intros rps h. assert (A : forall l m, (forall r, In r l -> br_height r <= m) -> top_height m l = m).
  { induction l as [|r l IH]; intros m M; cbn [top_height fold_right]; [reflexivity|]. fold (top_height m l). rewrite IH by (intros x X; apply M; right; assumption). specialize (M r (or_introl eq_refl)). lia. }
  apply A. clear A. intros r I. revert h. induction rps as [|x t IH]; intros h; [contradiction|]. destruct I as [->|I]; cbn [top_height fold_right]; [lia|].
  specialize (IH I h). unfold top_height in IH. lia.
Qed.
Lemma seen_mono : forall rps h h', h <= h' -> within (seen h' rps) (seen h rps).
Proof.
  assert (A : forall A (a b c d : list A), within a b -> within c d -> within (a ++ c) (b ++ d)).
  { intros A a b c d W W'. induction W; cbn [app]; [assumption|constructor; assumption|constructor; assumption]. }
  assert (R : forall l : list bevent, within l l) by (induction l; constructor; assumption).
  assert (N : forall l : list bevent, within [] l) by (induction l; constructor; assumption).
  induction rps as [|r t IH]; intros h h' L; cbn [seen]; [constructor|]. apply A; [|apply IH; lia].
  destruct (br_height r <? h') eqn:E1, (br_height r <? h) eqn:E2; auto. lia.
Qed.

Lemma j_events_takes : forall es n ms n', j_events es n = Some (ms, n') <-> takes anyone n es ms /\ n' = n + zlen ms.
Proof.
  induction es as [|e es IH]; intros n ms n'; cbn [j_events].
  - split; [intros [= <- <-]; split; [constructor|rewrite zlen_nil; lia]|]. intros [T ->]. inversion T; subst. rewrite zlen_nil, Z.add_0_r. reflexivity.
  - destruct (be_seq e <? n) eqn:E1; [|destruct (n <? be_seq e) eqn:E2].
    + rewrite IH. split; intros [T N]; split; try assumption; [apply takes_old; [lia|assumption]|]. inversion T; subst; try lia; assumption.
    + split; [discriminate|]. intros [T _]. inversion T; subst; lia.
    + split.
      * destruct (j_events es (n + 1)) as [[ms0 n0]|] eqn:E; [|discriminate]. intros [= <- <-]. apply IH in E as [T ->].
        split; [apply takes_next; [lia|exact I|assumption]|rewrite zlen_cons; lia].
      * intros [T ->]. inversion T as [|? ? ? ? L T'|? ? ? ? L M T'|? ? ? ms' L M T']; subst; [lia|exfalso; apply M; exact I|].
        assert (X : j_events es (be_seq e + 1) = Some (ms', be_seq e + zlen (be_msg e :: ms'))) by (apply IH; split; [assumption|rewrite zlen_cons; lia]).
        rewrite X. reflexivity.
Qed.
Lemma j_receipts_takes : forall rps h n ms h', j_receipts rps h n = Some (ms, h') <-> takes anyone n (seen h rps) ms /\ h' = top_height h rps.
Proof.
  induction rps as [|r t IH]; intros h n ms h'; cbn [j_receipts seen].
  - split; [intros [= <- <-]; split; [constructor|reflexivity]|]. intros [T ->]. inversion T; subst. reflexivity.
  - rewrite top_cons. destruct (br_height r <? h) eqn:E.
    + rewrite IH. replace (Z.max h (br_height r)) with h by lia. reflexivity.
    + replace (Z.max h (br_height r)) with (br_height r) by lia. split.
      * destruct (j_events (br_events r) n) as [[m1 n1]|] eqn:E1; [|discriminate]. destruct (j_receipts t (br_height r) n1) as [[m2 h2]|] eqn:E2; [|discriminate]. intros [= <- <-].
        apply j_events_takes in E1 as [T1 ->]. apply IH in E2 as [T2 ->]. split; [|reflexivity]. apply takes_app. exists m1, m2. auto.
      * intros [T ->]. apply takes_app in T as (m1 & m2 & -> & T1 & T2). rewrite (proj2 (j_events_takes _ _ _ _) (conj T1 eq_refl)).
        rewrite (proj2 (IH _ _ _ _) (conj T2 eq_refl)). reflexivity.
Qed.
Lemma j_array_spec : forall ms, j_array ms = match ms with [] => [] | _ => Some (last ms []) :: repeat None (length ms - 1) end.
Proof.
  intros ms. unfold j_array. assert (A : forall ms x t, fold_left (fun ret m => match ret with [] => [] | _ :: t => Some m :: t end) ms (x :: t) =
    match ms with [] => x | _ => Some (last ms ([]:list Z)) end :: t).
  { induction ms0 as [|m ms0 IH]; intros x t; [reflexivity|]. cbn [fold_left]. rewrite IH. destruct ms0; reflexivity. }
  assert (R : forall l : list (list Z), map (fun _ => @None (list Z)) l = repeat None (length l)) by (induction l; cbn [map repeat length]; congruence).
  rewrite R. destruct ms as [|m ms]; [reflexivity|]. cbn [length repeat]. rewrite A. replace (S (length ms) - 1)%nat with (length ms) by lia. reflexivity.
Qed.

Section Sol.
Variable H : list Z -> list Z.
Definition for_bmc (bmc : list Z) (e : bevent) : Prop := H (be_next e) = H bmc.
Lemma s_events_takes : forall bmc es n ms n', n < 2 ^ 256 -> s_events H bmc es n = Some (ms, n') <->
  takes (for_bmc bmc) n es ms /\ n' = n + zlen ms /\ n' < 2 ^ 256.
Proof.
  intros bmc. induction es as [|e es IH]; intros n ms n' B; cbn [s_events].
  - split; [intros [= <- <-]; split; [constructor|rewrite zlen_nil; lia]|]. intros (T & -> & _). inversion T; subst. rewrite zlen_nil, Z.add_0_r. reflexivity.
  - destruct (be_seq e <? n) eqn:E1; [|destruct (n <? be_seq e) eqn:E2].
    + rewrite IH by assumption. split; intros (T & N); split; try assumption; [apply takes_old; [lia|assumption]|]. inversion T; subst; try lia; assumption.
    + split; [discriminate|]. intros [T _]. inversion T; subst; lia.
    + assert (M : compareTo H (be_next e) bmc = true <-> for_bmc bmc e) by (unfold compareTo, for_bmc; apply bytes_eqb_eq).
      destruct (compareTo H (be_next e) bmc) eqn:C; cbn [negb].
      * unfold cadd. destruct (n + 1 <? 2 ^ 256) eqn:O; cbn [sbind].
        -- split.
           ++ destruct (s_events H bmc es (n + 1)) as [[ms0 n0]|] eqn:E; cbn [sbind]; [|discriminate]. intros [= <- <-]. cbn [fst snd]. apply IH in E as (T & -> & L); [|lia].
              split; [apply takes_next; [lia|apply M; reflexivity|assumption]|rewrite zlen_cons; lia].
           ++ intros (T & -> & L). inversion T as [|? ? ? ? L' T'|? ? ? ? L' M' T'|? ? ? ms' L' M' T']; subst; [lia|exfalso; apply M'; apply M; reflexivity|].
              rewrite zlen_cons in *. assert (X : s_events H bmc es (be_seq e + 1) = Some (ms', be_seq e + 1 + zlen ms')) by (apply IH; [lia|]; split; [assumption|lia]).
              rewrite X. cbn [sbind fst snd]. f_equal. f_equal. lia.
        -- split; [discriminate|]. intros (T & -> & L). inversion T as [|? ? ? ? L' T'|? ? ? ? L' M' T'|? ? ? ms' L' M' T']; subst; [lia|exfalso; apply M'; apply M; reflexivity|].
           rewrite zlen_cons in L. pose proof (zlen_nonneg _ ms'). lia.
      * rewrite IH by assumption. assert (NM : ~ for_bmc bmc e) by (intros X; apply M in X; discriminate).
        split; intros (T & N); split; try assumption; [apply takes_other; [lia|assumption|assumption]|]. inversion T; subst; try lia; try assumption; contradiction.
Qed.
Lemma s_receipts_takes : forall bmc rps h n ms h', n < 2 ^ 256 -> s_receipts H bmc rps h n = Some (ms, h') <->
  takes (for_bmc bmc) n (seen h rps) ms /\ n + zlen ms < 2 ^ 256 /\ h' = top_height h rps.
Proof.
  intros bmc. induction rps as [|r t IH]; intros h n ms h' B; cbn [s_receipts seen].
  - split; [intros [= <- <-]; split; [constructor|split; [rewrite zlen_nil; lia|reflexivity]]|]. intros (T & _ & ->). inversion T; subst. reflexivity.
  - rewrite top_cons. destruct (br_height r <? h) eqn:E.
    + rewrite IH by assumption. replace (Z.max h (br_height r)) with h by lia. reflexivity.
    + replace (Z.max h (br_height r)) with (br_height r) by lia. split.
      * destruct (s_events H bmc (br_events r) n) as [[m1 n1]|] eqn:E1; cbn [sbind]; [|discriminate]. cbn [fst snd].
        apply s_events_takes in E1 as (T1 & -> & L1); [|assumption].
        destruct (s_receipts H bmc t (br_height r) (n + zlen m1)) as [[m2 h2]|] eqn:E2; cbn [sbind]; [|discriminate]. cbn [fst snd]. intros [= <- <-].
        apply IH in E2 as (T2 & L2 & ->); [|assumption]. rewrite zlen_app. split; [|split; [lia|reflexivity]]. apply takes_app. exists m1, m2. auto.
      * intros (T & L & ->). apply takes_app in T as (m1 & m2 & -> & T1 & T2). rewrite zlen_app in L. pose proof (zlen_nonneg _ m2).
        rewrite (proj2 (s_events_takes bmc (br_events r) n m1 (n + zlen m1) B)) by (split; [assumption|lia]). cbn [sbind fst snd].
        rewrite (proj2 (IH (br_height r) (n + zlen m1) m2 _ ltac:(lia))) by (split; [exact T2|split; [lia|reflexivity]]). reflexivity.
Qed.
End Sol.
