(** Lemmas about the native coin service. *)
From Coq Require Import ZArith List Bool Lia Permutation.
From Coq Require Import ZifyBool.
From Verif Require Import Base L_Base M_JMap L_JMap M_JBmc L_JBmc L_JSum M_Ncs S_Ncs.
Import ListNotations.
Open Scope Z_scope.

Lemma sum_cons : forall {A} (f : A -> Z) x l, sumOf f (x :: l) = f x + sumOf f l.
Proof. reflexivity. Qed.
Lemma sum_app : forall {A} (f : A -> Z) a b, sumOf f (a ++ b) = sumOf f a + sumOf f b.
Proof. intros. exact (wsum_app f a b). Qed.
Lemma sum_zero : forall {A} (f : A -> Z) l, (forall x, In x l -> f x = 0) -> sumOf f l = 0.
Proof. intros. exact (wsum_zero f l H). Qed.
Lemma sum_nonneg : forall {A} (f : A -> Z) l, (forall x, In x l -> 0 <= f x) -> 0 <= sumOf f l.
Proof. intros. exact (wsum_nonneg f l H). Qed.
Lemma sum_ext : forall {A} (f g : A -> Z) l, (forall x, In x l -> f x = g x) -> sumOf f l = sumOf g l.
Proof. intros A f g l H. induction l as [|x l IH]; [reflexivity|]. rewrite !sum_cons, (H x (or_introl eq_refl)), IH; [reflexivity|]. intros y hy. apply H. right. exact hy. Qed.
Lemma sum_ge : forall {A} (f : A -> Z) l x, (forall y, In y l -> 0 <= f y) -> In x l -> f x <= sumOf f l.
Proof.
  intros A f l x H HI. induction l as [|y l IH]; [destruct HI|]. rewrite sum_cons. assert (0 <= sumOf f l) by (apply sum_nonneg; intros z hz; apply H; right; exact hz). assert (0 <= f y) by (apply H; left; reflexivity).
  destruct HI as [->|HI]; [lia|]. specialize (IH (fun z hz => H z (or_intror hz)) HI). lia.
Qed.
Lemma zz_key : key_spec zz_eqb.
Proof. intros [a b] [c d]. unfold zz_eqb. cbn [fst snd]. split; [intros H; f_equal; lia|intros E; injection E as <- <-; lia]. Qed.
Lemma z_key : key_spec Z.eqb.
Proof. intros a b. apply Z.eqb_eq. Qed.

(** * Books *)
Definition getb (b : list ((Z * Z) * (Z * Z))) (c o : Z) : Z * Z := match aget zz_eqb (c, o) b with Some x => x | None => (0, 0) end.
Definition lsum (b : list ((Z * Z) * (Z * Z))) (c : Z) : Z := sumOf (fun x => if fst (fst x) =? c then fst (snd x) else 0) b.
Definition rsum (b : list ((Z * Z) * (Z * Z))) (c : Z) : Z := sumOf (fun x => if fst (fst x) =? c then snd (snd x) else 0) b.
Lemma getb_same : forall b c o v, getb (aput zz_eqb (c, o) v b) c o = v.
Proof. intros. unfold getb. rewrite (aput_same zz_eqb zz_key). reflexivity. Qed.
Lemma getb_other : forall b c o v c' o', (c', o') <> (c, o) -> getb (aput zz_eqb (c, o) v b) c' o' = getb b c' o'.
Proof. intros. unfold getb. rewrite (aput_other zz_eqb zz_key) by assumption. reflexivity. Qed.
Lemma lsum_put : forall b c o v c', lsum (aput zz_eqb (c, o) v b) c' = lsum b c' + (if c =? c' then fst v - fst (getb b c o) else 0).
Proof.
  intros b c o v c'. unfold lsum. change (wsum (fun x : Z * Z * (Z * Z) => if fst (fst x) =? c' then fst (snd x) else 0) (aput zz_eqb (c, o) v b) = wsum (fun x : Z * Z * (Z * Z) => if fst (fst x) =? c' then fst (snd x) else 0) b + (if c =? c' then fst v - fst (getb b c o) else 0)).
  rewrite (wsum_put zz_eqb zz_key). unfold wat, getb. cbn [fst snd]. destruct (aget zz_eqb (c, o) b) as [x|]; cbn [fst snd]; destruct (c =? c'); lia.
Qed.
Lemma rsum_put : forall b c o v c', rsum (aput zz_eqb (c, o) v b) c' = rsum b c' + (if c =? c' then snd v - snd (getb b c o) else 0).
Proof.
  intros b c o v c'. unfold rsum. change (wsum (fun x : Z * Z * (Z * Z) => if fst (fst x) =? c' then snd (snd x) else 0) (aput zz_eqb (c, o) v b) = wsum (fun x : Z * Z * (Z * Z) => if fst (fst x) =? c' then snd (snd x) else 0) b + (if c =? c' then snd v - snd (getb b c o) else 0)).
  rewrite (wsum_put zz_eqb zz_key). unfold wat, getb. cbn [fst snd]. destruct (aget zz_eqb (c, o) b) as [x|]; cbn [fst snd]; destruct (c =? c'); lia.
Qed.
Definition zz_dec : forall a b : Z * Z, {a = b} + {a <> b}.
Proof. decide equality; apply Z.eq_dec. Defined.
(** the books after a change of an owner: locked by [dl], refundable by [dr], of each coin *)
Record booked (o : Z) (dl dr : Z -> Z) (b b' : list ((Z * Z) * (Z * Z))) : Prop := Booked {
  bk_own : forall c, getb b' c o = (fst (getb b c o) + dl c, snd (getb b c o) + dr c);
  bk_other : forall c o', o' <> o -> getb b' c o' = getb b c o';
  bk_l : forall c, lsum b' c = lsum b c + dl c;
  bk_r : forall c, rsum b' c = rsum b c + dr c;
  bk_nd : NoDup (map fst b) -> NoDup (map fst b') }.
Lemma booked_refl : forall o b, booked o (fun _ => 0) (fun _ => 0) b b.
Proof. intros. split; intros; try reflexivity; try lia; try assumption. rewrite !Z.add_0_r. apply surjective_pairing. Qed.
Lemma booked_ext : forall o dl dr dl' dr' b b', (forall c, dl c = dl' c) -> (forall c, dr c = dr' c) -> booked o dl dr b b' -> booked o dl' dr' b b'.
Proof. intros o dl dr dl' dr' b b' H1 H2 [A B C D N]. split; intros; rewrite <- ?H1, <- ?H2; auto. Qed.
Lemma booked_trans : forall o dl dr dl' dr' b b' b2, booked o dl dr b b' -> booked o dl' dr' b' b2 -> booked o (fun c => dl c + dl' c) (fun c => dr c + dr' c) b b2.
Proof.
  intros o dl dr dl' dr' b b' b2 [A B C D N] [A' B' C' D' N']. split; intros.
  - rewrite A', A. cbn [fst snd]. f_equal; lia.
  - rewrite B', B by assumption. reflexivity.
  - rewrite C', C. lia.
  - rewrite D', D. lia.
  - apply N', N. assumption.
Qed.
Lemma booked_put : forall b c o v, booked o (fun k => if c =? k then fst v - fst (getb b c o) else 0) (fun k => if c =? k then snd v - snd (getb b c o) else 0) b (aput zz_eqb (c, o) v b).
Proof.
  intros b c o v. split.
  - intros k. destruct (Z.eqb_spec c k) as [<-|N]; [rewrite getb_same; destruct v, (getb b c o); cbn [fst snd]; f_equal; lia|]. rewrite getb_other by congruence. rewrite !Z.add_0_r. apply surjective_pairing.
  - intros k o' N. apply getb_other. congruence.
  - intros k. apply lsum_put.
  - intros k. apply rsum_put.
  - apply (aput_nodup zz_eqb zz_key).
Qed.

(** * Fees *)
Definition getf (f : list (Z * Z)) (c : Z) : Z := match aget Z.eqb c f with Some v => v | None => 0 end.
Lemma getf_put : forall f c v c', getf (aput Z.eqb c v f) c' = if c =? c' then v else getf f c'.
Proof. intros f c v c'. unfold getf. destruct (Z.eqb_spec c c') as [<-|N]; [rewrite (aput_same Z.eqb z_key); reflexivity|rewrite (aput_other Z.eqb z_key) by congruence; reflexivity]. Qed.

(** * The token contract *)
Definition gett (t : list ((Z * Z) * Z)) (i a : Z) : Z := match aget zz_eqb (i, a) t with Some v => v | None => 0 end.
Definition tsum (t : list ((Z * Z) * Z)) (i : Z) : Z := sumOf (fun x => if fst (fst x) =? i then snd x else 0) t.
Lemma gett_put : forall t i a v i' a', gett (aput zz_eqb (i, a) v t) i' a' = if zz_eqb (i, a) (i', a') then v else gett t i' a'.
Proof.
  intros t i a v i' a'. unfold gett. destruct (zz_eqb (i, a) (i', a')) eqn:E; [apply zz_key in E; rewrite E, (aput_same zz_eqb zz_key); reflexivity|].
  rewrite (aput_other zz_eqb zz_key); [reflexivity|]. intros X. rewrite X, (keqb_refl zz_eqb zz_key) in E. discriminate.
Qed.
Lemma tsum_put : forall t i a v i', tsum (aput zz_eqb (i, a) v t) i' = tsum t i' + (if i =? i' then v - gett t i a else 0).
Proof.
  intros t i a v i'. unfold tsum. change (wsum (fun x : Z * Z * Z => if fst (fst x) =? i' then snd x else 0) (aput zz_eqb (i, a) v t) = wsum (fun x : Z * Z * Z => if fst (fst x) =? i' then snd x else 0) t + (if i =? i' then v - gett t i a else 0)).
  rewrite (wsum_put zz_eqb zz_key). unfold wat, gett. cbn [fst snd]. destruct (aget zz_eqb (i, a) t) as [x|]; cbn [fst snd]; destruct (i =? i'); lia.
Qed.
(** what a list of (id, value) amounts to for an id *)
Definition vsum (i : Z) (l : list (Z * Z)) : Z := sumOf (fun p => if fst p =? i then snd p else 0) l.
Lemma vsum_cons : forall i j v l, vsum i ((j, v) :: l) = (if j =? i then v else 0) + vsum i l.
Proof. reflexivity. Qed.
Lemma vsum_app : forall i a b, vsum i (a ++ b) = vsum i a + vsum i b.
Proof. intros. apply sum_app. Qed.
(** the token contract after changes of one account by [d] per id, the supplies by [e] *)
Record tokked (a : Z) (d e : Z -> Z) (s s' : ncs) : Prop := Tokked {
  tk_own : forall i, gett (n_tok s') i a = gett (n_tok s) i a + d i;
  tk_other : forall i a', a' <> a -> gett (n_tok s') i a' = gett (n_tok s) i a';
  tk_sum : forall i, tsum (n_tok s') i = tsum (n_tok s) i + d i;
  tk_sup : forall i, getf (n_sup s') i = getf (n_sup s) i + e i;
  tk_frame : s' = set_sup (set_tok s (n_tok s')) (n_sup s') }.
Lemma tok_set : forall s i a, tokOf s i a = gett (n_tok s) i a.
Proof. reflexivity. Qed.
Lemma mintAll_spec : forall l s to s', mintAll s to l = Some s' -> tokked to (fun i => vsum i l) (fun i => vsum i l) s s' /\ Forall (fun p => 0 < snd p) l.
Proof.
  induction l as [|[i v] l IH]; intros s to s' E; cbn [mintAll] in E.
  - injection E as <-. split; [|constructor]. split; intros; try (unfold vsum, sumOf; cbn [fold_right]; lia); try reflexivity. destruct s; reflexivity.
  - unfold nbind, mintOne in E. destruct (v <=? 0) eqn:EV; [discriminate|]. apply IH in E as [[A B C D F] P]. split; [|constructor; [cbn [snd]; lia|exact P]].
    cbn [n_tok n_sup putTok set_tok set_sup] in A, B, C, D. change (tokOf (set_sup s (aput Z.eqb i (supOf s i + v) (n_sup s))) i to) with (gett (n_tok s) i to) in *. change (supOf s i) with (getf (n_sup s) i) in *. split.
    + intros j. rewrite A, gett_put, vsum_cons. unfold zz_eqb. cbn [fst snd]. rewrite Z.eqb_refl, andb_true_r. destruct (Z.eqb_spec i j) as [<-|N]; lia.
    + intros j a N. rewrite B by exact N. rewrite gett_put. unfold zz_eqb. cbn [fst snd]. replace (to =? a) with false by lia. rewrite andb_false_r. reflexivity.
    + intros j. rewrite C, tsum_put, vsum_cons. destruct (i =? j); lia.
    + intros j. rewrite D, getf_put, vsum_cons. destruct (Z.eqb_spec i j) as [<-|N]; lia.
    + rewrite F. destruct s; reflexivity.
Qed.
Lemma burnAll_spec : forall l s from s', burnAll s from l = Some s' -> tokked from (fun i => - vsum i l) (fun i => - vsum i l) s s'.
Proof.
  induction l as [|[i v] l IH]; intros s from s' E; cbn [burnAll] in E.
  - injection E as <-. split; intros; try (unfold vsum, sumOf; cbn [fold_right]; lia); try reflexivity. destruct s; reflexivity.
  - unfold nbind, burnOne in E. destruct (v <=? 0) eqn:EV; [discriminate|]. destruct (aget Z.eqb i (n_sup s)) as [w|] eqn:EW; [|discriminate].
    destruct (tokOf (set_sup s (aput Z.eqb i (supOf s i - v) (n_sup s))) i from <? v) eqn:ET; [discriminate|]. apply IH in E as [A B C D F].
    cbn [n_tok n_sup putTok set_tok set_sup] in A, B, C, D. change (tokOf (set_sup s (aput Z.eqb i (supOf s i - v) (n_sup s))) i from) with (gett (n_tok s) i from) in *. change (supOf s i) with (getf (n_sup s) i) in *. split.
    + intros j. rewrite A, gett_put, vsum_cons. unfold zz_eqb. cbn [fst snd]. rewrite Z.eqb_refl, andb_true_r. destruct (Z.eqb_spec i j) as [<-|N]; lia.
    + intros j a N. rewrite B by exact N. rewrite gett_put. unfold zz_eqb. cbn [fst snd]. replace (from =? a) with false by lia. rewrite andb_false_r. reflexivity.
    + intros j. rewrite C, tsum_put, vsum_cons. destruct (i =? j); lia.
    + intros j. rewrite D, getf_put, vsum_cons. destruct (Z.eqb_spec i j) as [<-|N]; lia.
    + rewrite F. destruct s; reflexivity.
Qed.
(** burning works if the account has enough *)
Lemma burnAll_works : forall l s from, Forall (fun p => 0 < snd p) l -> (forall i, vsum i l <= gett (n_tok s) i from) -> (forall i, 0 < gett (n_tok s) i from -> aget Z.eqb i (n_sup s) <> None) -> exists s', burnAll s from l = Some s'.
Proof.
  induction l as [|[i v] l IH]; intros s from P H1 H2; [exists s; reflexivity|]. apply Forall_cons_iff in P as [PV P]. cbn [snd] in PV.
  assert (HL : forall j, 0 <= vsum j l). { intros j. apply sum_nonneg. intros p HI. rewrite Forall_forall in P. specialize (P p HI). destruct (fst p =? j); lia. }
  pose proof (H1 i) as HI. rewrite vsum_cons, Z.eqb_refl in HI. pose proof (HL i) as HLi. cbn [burnAll]. unfold burnOne. replace (v <=? 0) with false by lia.
  destruct (aget Z.eqb i (n_sup s)) as [w|] eqn:EW; [|exfalso; apply (H2 i); [lia|exact EW]]. change (tokOf (set_sup s (aput Z.eqb i (supOf s i - v) (n_sup s))) i from) with (gett (n_tok s) i from). replace (gett (n_tok s) i from <? v) with false by lia. cbn [nbind].
  apply IH; [exact P| |]; cbn [n_tok n_sup putTok set_tok set_sup]; intros j; rewrite gett_put; unfold zz_eqb; cbn [fst snd]; rewrite Z.eqb_refl, andb_true_r; destruct (Z.eqb_spec i j) as [<-|N].
  - lia.
  - specialize (H1 j). rewrite vsum_cons in H1. replace (i =? j) with false in H1 by lia. lia.
  - intros _. rewrite (aput_same Z.eqb z_key). discriminate.
  - intros HP. rewrite (aput_other Z.eqb z_key) by congruence. apply H2, HP.
Qed.
Record moved (from to : Z) (d : Z -> Z) (s s' : ncs) : Prop := Moved {
  mv_from : forall i, gett (n_tok s') i from = gett (n_tok s) i from - d i;
  mv_to : forall i, gett (n_tok s') i to = gett (n_tok s) i to + d i;
  mv_other : forall i a, a <> from -> a <> to -> gett (n_tok s') i a = gett (n_tok s) i a;
  mv_sum : forall i, tsum (n_tok s') i = tsum (n_tok s) i;
  mv_pos : forall i, 0 <= d i;
  mv_enough : forall i, 0 <= gett (n_tok s) i from -> d i <= gett (n_tok s) i from;
  mv_frame : s' = set_tok s (n_tok s') }.
Lemma moveAll_spec : forall l s from to s', from <> to -> moveAll s from to l = Some s' -> moved from to (fun i => vsum i l) s s' /\ Forall (fun p => 0 <= snd p) l.
Proof.
  induction l as [|[i v] l IH]; intros s from to s' NE E; cbn [moveAll] in E.
  - injection E as <-. split; [|constructor]. split; intros; try (unfold vsum, sumOf; cbn [fold_right]; lia); try reflexivity. destruct s; reflexivity.
  - unfold nbind, move in E. destruct ((v <? 0) || (tokOf s i from <? v)) eqn:EV; [discriminate|]. apply IH in E as [[A B C D P Q F] PL]; [|exact NE]. split; [|constructor; [cbn [snd]; lia|exact PL]].
    assert (GT : tokOf (putTok s i from (tokOf s i from - v)) i to = gett (n_tok s) i to). { change (gett (aput zz_eqb (i, from) (tokOf s i from - v) (n_tok s)) i to = gett (n_tok s) i to). rewrite gett_put. unfold zz_eqb. cbn [fst snd]. replace (from =? to) with false by lia. rewrite andb_false_r. reflexivity. }
    rewrite GT in A, B, C, D, Q, F. change (tokOf s i from) with (gett (n_tok s) i from) in *. cbn [n_tok putTok set_tok] in A, B, C, D, Q.
    assert (G1 : forall j, gett (aput zz_eqb (i, to) (gett (n_tok s) i to + v) (aput zz_eqb (i, from) (gett (n_tok s) i from - v) (n_tok s))) j from = gett (n_tok s) j from - (if i =? j then v else 0)).
    { intros j. rewrite !gett_put. unfold zz_eqb. cbn [fst snd]. replace (to =? from) with false by lia. rewrite Z.eqb_refl, andb_false_r, andb_true_r. destruct (Z.eqb_spec i j) as [<-|N]; lia. }
    split.
    + intros j. rewrite A, G1, vsum_cons. lia.
    + intros j. rewrite B, gett_put, vsum_cons. unfold zz_eqb. cbn [fst snd]. rewrite Z.eqb_refl, andb_true_r. destruct (Z.eqb_spec i j) as [<-|N]; [lia|]. rewrite gett_put. unfold zz_eqb. cbn [fst snd]. replace (i =? j) with false by lia. cbn [andb]. lia.
    + intros j a N1 N2. rewrite C by assumption. rewrite !gett_put. unfold zz_eqb. cbn [fst snd]. replace (to =? a) with false by lia. replace (from =? a) with false by lia. rewrite !andb_false_r. reflexivity.
    + intros j. rewrite D, !tsum_put. change (gett (aput zz_eqb (i, from) (gett (n_tok s) i from - v) (n_tok s)) i to = gett (n_tok s) i to) in GT. rewrite GT. destruct (i =? j); lia.
    + intros j. rewrite vsum_cons. specialize (P j). destruct (i =? j); lia.
    + intros j H. rewrite vsum_cons. specialize (Q j). rewrite G1 in Q. pose proof (P j) as Pj. destruct (Z.eq_dec i j) as [EJ|N]; [rewrite <- EJ in *; rewrite Z.eqb_refl in *; lia|replace (i =? j) with false in * by lia; lia].
    + rewrite F. destruct s; reflexivity.
Qed.
