(** C113: the price feed of the fee aggregation. *)
From Coq Require Import ZArith List Bool Lia.
From Coq Require Import ZifyBool.
From Verif Require Import Base L_Base GoStr M_JMap L_JMap M_RefData S_RefData.
Import ListNotations.
Open Scope Z_scope.
Local Notation bytes := (list Z).

Lemma keyspec : forall a b : bytes, bytes_eqb a b = true <-> a = b.
Proof. exact bytes_eqb_eq. Qed.
Lemma zip4_sent : forall a b c d, length a = length b -> length a = length c -> length a = length d ->
  a = map u_sym (zip4 a b c d) /\ b = map u_rate (zip4 a b c d) /\ c = map u_time (zip4 a b c d) /\ d = map u_id (zip4 a b c d).
Proof.
  induction a as [|x a IH]; intros [|y b] [|z c] [|w d] L1 L2 L3; try discriminate; [repeat split|]. cbn [length] in *.
  destruct (IH b c d ltac:(lia) ltac:(lia) ltac:(lia)) as (I1 & I2 & I3 & I4). cbn [zip4 map u_sym u_rate u_time u_id].
  split; [rewrite <- I1; reflexivity|]. split; [rewrite <- I2; reflexivity|]. split; [rewrite <- I3; reflexivity|rewrite <- I4; reflexivity].
Qed.
Lemma zip4_maps : forall us, zip4 (map u_sym us) (map u_rate us) (map u_time us) (map u_id us) = us.
Proof. induction us as [|[a b c d] us IH]; [reflexivity|]. cbn [map zip4 u_sym u_rate u_time u_id]. rewrite IH. reflexivity. Qed.
Lemma relay_sent : forall k s us, sent k us -> relay (k_owner k) (k_caller k) s (k_syms k) (k_rates k) (k_times k) (k_ids k) = Some (fold_left set_refs us s).
Proof.
  intros k s us (S1 & S2 & S3 & S4 & S5). unfold relay. rewrite S1, S2, S3, S4, S5, Z.eqb_refl, !map_length, Nat.eqb_refl. cbn [negb]. rewrite zip4_maps. reflexivity.
Qed.
Lemma relay_some : forall k s s', relay (k_owner k) (k_caller k) s (k_syms k) (k_rates k) (k_times k) (k_ids k) = Some s' -> exists us, sent k us.
Proof.
  intros k s s' E. unfold relay in E. destruct (k_caller k =? k_owner k) eqn:E1; [|discriminate]. destruct (length (k_syms k) =? length (k_rates k))%nat eqn:E2; [|discriminate].
  destruct (length (k_syms k) =? length (k_times k))%nat eqn:E3; [|discriminate]. destruct (length (k_syms k) =? length (k_ids k))%nat eqn:E4; [|discriminate].
  exists (zip4 (k_syms k) (k_rates k) (k_times k) (k_ids k)). split; [lia|]. apply zip4_sent; lia.
Qed.
(** A relay is taken just when the owner sent it with four lists of one length. *)
Theorem C113_taken : forall k s, (exists s', relay (k_owner k) (k_caller k) s (k_syms k) (k_rates k) (k_times k) (k_ids k) = Some s') <-> exists us, sent k us.
Proof.
  intros k s. split; [intros (s' & E); eapply relay_some; exact E|]. intros (us & S). eexists. apply relay_sent. exact S.
Qed.
Print Assumptions C113_taken.
Lemma fold_log : forall us s, r_log (fold_left set_refs us s) = r_log s ++ us.
Proof. induction us as [|u us IH]; intros s; [symmetry; apply app_nil_r|]. cbn [fold_left]. rewrite IH. unfold set_refs. cbn [r_log]. rewrite <- app_assoc. reflexivity. Qed.
Lemma rrun_snoc : forall l k, rrun (l ++ [k]) = rstep (rrun l) k.
Proof. intros l k. unfold rrun. rewrite fold_left_app. reflexivity. Qed.
(** The events tell just what the owner sent, in order. *)
Theorem C113_events : forall l, told l (r_log (rrun l)).
Proof.
  induction l as [|k l IH] using rev_ind; [constructor|]. rewrite rrun_snoc. unfold rstep.
  destruct (relay (k_owner k) (k_caller k) (rrun l) (k_syms k) (k_rates k) (k_times k) (k_ids k)) as [s'|] eqn:E.
  - destruct (relay_some _ _ _ E) as (us & S). rewrite (relay_sent k (rrun l) us S) in E. assert (s' = fold_left set_refs us (rrun l)) by congruence. subst. rewrite fold_log. apply told_sent; assumption.
  - apply told_refused; [exact IH|]. intros us S. rewrite (relay_sent k (rrun l) us S) in E. discriminate.
Qed.
Print Assumptions C113_events.

Definition good (s : rst) : Prop :=
  forall sym, match aget bytes_eqb sym (r_refs s) with
              | Some d => exists u, newest (r_log s) sym u /\ d = RData (u_rate u) (u_time u * 1000000) (u_id u)
              | None => forall u, In u (r_log s) -> u_sym u <> sym
              end.
Lemma good_set : forall s u, good s -> good (set_refs s u).
Proof.
  intros s u G sym. unfold set_refs. cbn [r_refs r_log]. destruct (list_eq_dec Z.eq_dec (u_sym u) sym) as [<-|N].
  - rewrite (aput_same _ keyspec). exists u. split; [|reflexivity]. exists (r_log s), []. split; [reflexivity|]. split; [reflexivity|intros v []].
  - rewrite (aput_other _ keyspec) by congruence. specialize (G sym). destruct (aget bytes_eqb sym (r_refs s)) as [d|].
    + destruct G as (v & (before & after & G1 & G2 & G3) & G4). exists v. split; [|exact G4]. exists before, (after ++ [u]). rewrite G1. split; [rewrite <- app_assoc; reflexivity|]. split; [exact G2|].
      intros w W. apply in_app_iff in W. destruct W as [W|[<-|[]]]; [exact (G3 w W)|exact N].
    + intros w W. apply in_app_iff in W. destruct W as [W|[<-|[]]]; [exact (G w W)|exact N].
Qed.
Lemma good_run : forall l, good (rrun l).
Proof.
  induction l as [|k l IH] using rev_ind; [intros sym u []|]. rewrite rrun_snoc. unfold rstep.
  destruct (relay (k_owner k) (k_caller k) (rrun l) (k_syms k) (k_rates k) (k_times k) (k_ids k)) as [s'|] eqn:E; [|exact IH].
  destruct (relay_some _ _ _ E) as (us & S). rewrite (relay_sent k (rrun l) us S) in E. assert (s' = fold_left set_refs us (rrun l)) by congruence. subst. clear E S.
  revert IH. generalize (rrun l) as s. induction us as [|u us IHu]; intros s G; [exact G|]. apply IHu. apply good_set. exact G.
Qed.
Lemma newest_one : forall l sym u v, newest l sym u -> newest l sym v -> u = v.
Proof.
  intros l sym u v (b1 & a1 & E1 & S1 & N1) (b2 & a2 & E2 & S2 & N2). subst l. revert b2 E2. induction b1 as [|x b1 IH]; intros [|y b2] E2; cbn [app] in E2.
  - congruence.
  - exfalso. apply (N1 v); [|exact S2]. assert (a1 = b2 ++ v :: a2) by congruence. subst. apply in_app_iff. right. left. reflexivity.
  - exfalso. apply (N2 u); [|exact S1]. assert (b1 ++ u :: a1 = a2) by congruence. subst. apply in_app_iff. right. left. reflexivity.
  - apply (IH b2). congruence.
Qed.
(** A symbol other than USD has the data of its last update, its time in microseconds; without an update it has none. *)
Theorem C113_latest : forall l now sym, sym <> USD ->
  (forall d, get_ref_data now (rrun l) sym = Some d <-> exists u, newest (r_log (rrun l)) sym u /\ d = RData (u_rate u) (u_time u * 1000000) (u_id u)) /\
  (get_ref_data now (rrun l) sym = None <-> forall u, In u (r_log (rrun l)) -> u_sym u <> sym).
Proof.
  intros l now sym N. unfold get_ref_data. replace (bytes_eqb sym USD) with false by (symmetry; destruct (bytes_eqb sym USD) eqn:E; [apply keyspec in E; contradiction|reflexivity]).
  pose proof (good_run l sym) as G. destruct (aget bytes_eqb sym (r_refs (rrun l))) as [d|].
  - destruct G as (u & G1 & G2). split.
    + intros d'. split; [intros E; exists u; split; [exact G1|congruence]|]. intros (v & V1 & V2). rewrite (newest_one _ _ _ _ G1 V1) in G2. congruence.
    + split; [discriminate|]. intros A. exfalso. destruct G1 as (b & a & E & S & _). apply (A u); [rewrite E; apply in_app_iff; right; left; reflexivity|exact S].
  - split.
    + intros d. split; [discriminate|]. intros (u & (b & a & E & S & _) & _). exfalso. apply (G u); [rewrite E; apply in_app_iff; right; left; reflexivity|exact S].
    + split; [intros _; exact G|reflexivity].
Qed.
Print Assumptions C113_latest.
(** USD is always one and always of now, whatever was relayed for it. *)
Theorem C113_usd : forall s now, get_ref_data now s USD = Some (RData 1000000000 now 0).
Proof. reflexivity. Qed.
Print Assumptions C113_usd.
(** The rate of a pair is the quotient of the rates with 18 digits, rounded down; it is missing when a symbol has no data or the quote is 0. *)
Theorem C113_rate : forall now s base quote b q, get_ref_data now s base = Some b -> get_ref_data now s quote = Some q ->
  (d_rate q = 0 -> get_reference_data now s base quote = None) /\
  (0 < d_rate q -> exists r, get_reference_data now s base quote = Some (r, d_last b, d_last q) /\ r * d_rate q <= d_rate b * 10 ^ 18 < (r + 1) * d_rate q).
Proof.
  intros now s base quote b q B Q. unfold get_reference_data. rewrite B, Q. split.
  - intros Z0. rewrite Z0. reflexivity.
  - intros P. replace (d_rate q =? 0) with false by lia. eexists. split; [reflexivity|]. replace (d_rate b * ONE * ONE) with (d_rate b * 10 ^ 18) by (unfold ONE; rewrite <- Z.mul_assoc; f_equal).
    generalize (d_rate b * 10 ^ 18) as n. intros n. pose proof (Z.div_mod n (d_rate q) ltac:(lia)). pose proof (Z.mod_pos_bound n (d_rate q) P). nia.
Qed.
Print Assumptions C113_rate.
Theorem C113_missing : forall now s base quote, get_ref_data now s base = None \/ get_ref_data now s quote = None -> get_reference_data now s base quote = None.
Proof. intros now s base quote [E|E]; unfold get_reference_data; rewrite E; [reflexivity|]. destruct (get_ref_data now s base); reflexivity. Qed.
Print Assumptions C113_missing.
(** There and back never gains; a symbol against itself is one. *)
Theorem C113_inverse : forall now s x y a b, get_ref_data now s x = Some a -> get_ref_data now s y = Some b -> 0 < d_rate a -> 0 < d_rate b ->
  exists r1 r2 t1 t2 t3 t4, get_reference_data now s x y = Some (r1, t1, t2) /\ get_reference_data now s y x = Some (r2, t3, t4) /\ r1 * r2 <= 10 ^ 36 /\ (x = y -> r1 = 10 ^ 18).
Proof.
  intros now s x y a b A B PA PB. destruct (proj2 (C113_rate now s x y a b A B) PB) as (r1 & E1 & L1). destruct (proj2 (C113_rate now s y x b a B A) PA) as (r2 & E2 & L2).
  exists r1, r2, (d_last a), (d_last b), (d_last b), (d_last a). split; [exact E1|]. split; [exact E2|].
  assert (R1 : 0 <= r1) by (change (10 ^ 18) with 1000000000000000000 in *; nia). assert (R2 : 0 <= r2) by (change (10 ^ 18) with 1000000000000000000 in *; nia). split.
  - assert (M : (r1 * d_rate b) * (r2 * d_rate a) <= (d_rate a * 10 ^ 18) * (d_rate b * 10 ^ 18)) by (apply Z.mul_le_mono_nonneg; try lia; apply Z.mul_nonneg_nonneg; lia).
    change (10 ^ 36) with (10 ^ 18 * 10 ^ 18). apply (Z.mul_le_mono_pos_r _ _ (d_rate a * d_rate b)); [apply Z.mul_pos_pos; lia|].
    replace (r1 * r2 * (d_rate a * d_rate b)) with (r1 * d_rate b * (r2 * d_rate a)) by ring. replace (10 ^ 18 * 10 ^ 18 * (d_rate a * d_rate b)) with (d_rate a * 10 ^ 18 * (d_rate b * 10 ^ 18)) by ring. exact M.
  - intros E. subst y. assert (a = b) by congruence. subst b. change (10 ^ 18) with 1000000000000000000 in *. nia.
Qed.
Print Assumptions C113_inverse.
(** In bulk: every pair as it is alone, in order; or nothing, when the lists differ in length or one pair has no rate. *)
Theorem C113_bulk : forall now s bases quotes out,
  get_reference_data_bulk now s bases quotes = Some out <-> length bases = length quotes /\ map (fun p => get_reference_data now s (fst p) (snd p)) (combine bases quotes) = map Some out.
Proof.
  intros now s bases quotes out. unfold get_reference_data_bulk.
  assert (G : forall ps out, bulk_loop now s ps = Some out <-> map (fun p => get_reference_data now s (fst p) (snd p)) ps = map Some out).
  { induction ps as [|[b q] ps IH]; intros [|o out']; cbn [bulk_loop map fst snd]; try (split; [reflexivity|reflexivity]); try (split; discriminate).
    - destruct (get_reference_data now s b q); [|split; discriminate]. destruct (bulk_loop now s ps); split; discriminate.
    - destruct (get_reference_data now s b q) as [x|]; [|split; discriminate]. destruct (bulk_loop now s ps) as [l|] eqn:K.
      + pose proof (proj1 (IH l) eq_refl) as I. split; [intros E; assert (x = o) by congruence; assert (l = out') by congruence; subst; rewrite I; reflexivity|].
        intros E. assert (E1 : x = o) by congruence. assert (E2 : map (fun p => get_reference_data now s (fst p) (snd p)) ps = map Some out') by congruence. apply IH in E2. congruence.
      + split; [discriminate|]. intros E. assert (E2 : map (fun p => get_reference_data now s (fst p) (snd p)) ps = map Some out') by congruence. apply IH in E2. discriminate. }
  destruct (length bases =? length quotes)%nat eqn:L; cbn [negb].
  - rewrite G. split; [intros E; split; [lia|exact E]|intros [_ E]; exact E].
  - split; [discriminate|]. intros [E _]. lia.
Qed.
Print Assumptions C113_bulk.
(** An update that is older than the one before replaces it. *)
Theorem C113_older_refuted : forall owner sym t t' a b i, sym <> USD -> t' < t ->
  get_ref_data 0 (rrun [RCall owner owner [sym] [a] [t] [i]; RCall owner owner [sym] [b] [t'] [i]]) sym = Some (RData b (t' * 1000000) i).
Proof.
  intros owner sym t t' a b i N T. apply (C113_latest _ 0 sym N). exists (RUpd sym b t' i). split; [|reflexivity]. exists [RUpd sym a t i], []. split; [|split; [reflexivity|intros v []]].
  unfold rrun. cbn [fold_left]. unfold rstep, relay. cbn [k_owner k_caller k_syms k_rates k_times k_ids length]. rewrite Z.eqb_refl. reflexivity.
Qed.
Print Assumptions C113_older_refuted.
(** What is relayed for USD is told in an event but never used. *)
Theorem C113_usd_event_refuted : forall owner a t i, r_log (rrun [RCall owner owner [USD] [a] [t] [i]]) = [RUpd USD a t i] /\ forall now, get_ref_data now (rrun [RCall owner owner [USD] [a] [t] [i]]) USD = Some (RData 1000000000 now 0).
Proof. intros owner a t i. split; [|reflexivity]. unfold rrun. cbn [fold_left]. unfold rstep, relay. cbn [k_owner k_caller k_syms k_rates k_times k_ids length]. rewrite Z.eqb_refl. reflexivity. Qed.
Print Assumptions C113_usd_event_refuted.

Local Definition btc : bytes := [66]. Local Definition eth : bytes := [69].
Local Definition hist : list rcall := [RCall 1 1 [btc; eth] [30; 20] [5; 6] [1; 2]; RCall 1 2 [btc] [1] [7] [3]; RCall 1 1 [btc] [1] [] [3]; RCall 1 1 [eth] [7] [8] [4]].
Example C113_ex : r_log (rrun hist) = [RUpd btc 30 5 1; RUpd eth 20 6 2; RUpd eth 7 8 4] /\ get_ref_data 0 (rrun hist) eth = Some (RData 7 8000000 4) /\
  get_reference_data 0 (rrun hist) btc eth = Some (4285714285714285714, 5000000, 8000000) /\ get_reference_data 0 (rrun hist) eth btc = Some (233333333333333333, 8000000, 5000000) /\
  get_reference_data_bulk 9 (rrun hist) [btc; USD] [USD; USD] = Some [(30000000000, 5000000, 9); (1000000000000000000, 9, 9)] /\ get_ref_data 0 (rrun hist) [1] = None.
Proof. repeat split. Qed.
Example C113_ex_sent : sent (RCall 1 1 [btc; eth] [30; 20] [5; 6] [1; 2]) [RUpd btc 30 5 1; RUpd eth 20 6 2].
Proof. repeat split. Qed.
