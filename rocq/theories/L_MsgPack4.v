(** Lemmas for codec.MP: readers look only at what they use; what they return has the type. *)
From Coq Require Import String Ascii ZArith List Bool Lia Permutation Sorted.
From Coq Require Import ZifyBool.
From Verif Require Import Base L_Base GoStr GoSort M_IntConv M_Rlp S_Rlp L_Rlp L_Address M_Codec S_Codec L_Codec T_Codec M_MsgPack S_MsgPack L_MsgPack L_MsgPack2.
Import ListNotations.
Open Scope Z_scope.

Definition olocal {A} (f : list Z -> option (A * list Z)) : Prop := forall s a r, f s = Some (a, r) -> exists p, s = p ++ r /\ forall q, f (p ++ q) = Some (a, q).
Definition local {A} (f : list Z -> mout A) : Prop := forall s,
  (forall a r, f s = MOk a r -> exists p, s = p ++ r /\ forall q, f (p ++ q) = MOk a q) /\ (forall r, f s = MNil r -> exists p, s = p ++ r /\ forall q, f (p ++ q) = MNil q).

Lemma take_local : forall n, olocal (take n).
Proof.
  intros n s a r H. unfold take in H. destruct (Z.leb_spec 0 n) as [N|N]; [cbn [andb] in H|discriminate]. destruct (Z.leb_spec n (zlen s)) as [L|L]; [|discriminate]. injection H as <- <-. exists (firstn (Z.to_nat n) s). split; [symmetry; apply firstn_skipn|].
  intros q. apply take_app_n. unfold zlen in *. rewrite firstn_length. lia.
Qed.
Lemma read_be_local : forall k, olocal (read_be k).
Proof.
  intros k s a r H. unfold read_be in *. destruct (take k s) as [[b r']|] eqn:E; [|discriminate]. injection H as <- <-. destruct (take_local k _ _ _ E) as (p & -> & G). exists p. split; [reflexivity|]. intros q. rewrite G. reflexivity.
Qed.
Lemma some_local : forall A (a : A), olocal (fun s => Some (a, s)).
Proof. intros A a s b r H. injection H as <- <-. exists []. split; [reflexivity|]. intros q. reflexivity. Qed.
Lemma none_local : forall A, olocal (fun _ => @None (A * list Z)).
Proof. intros A s a r H. discriminate. Qed.
Lemma if_local : forall A (b : bool) (f g : list Z -> option (A * list Z)), olocal f -> olocal g -> olocal (fun s => if b then f s else g s).
Proof. intros A [|] f g F G; assumption. Qed.
Lemma omap_local : forall A B (h : A -> B) f, olocal f -> olocal (fun s => match f s with Some (a, r) => Some (h a, r) | None => None end).
Proof. intros A B h f F s b r H. destruct (f s) as [[a r']|] eqn:E; [|discriminate]. injection H as <- <-. destruct (F _ _ _ E) as (p & -> & G). exists p. split; [reflexivity|]. intros q. rewrite G. reflexivity. Qed.
Lemma obind_local : forall A B (f : list Z -> option (A * list Z)) (g : A -> list Z -> option (B * list Z)), olocal f -> (forall s a r, f s = Some (a, r) -> olocal (g a)) ->
  olocal (fun s => match f s with Some (a, r) => g a r | None => None end).
Proof.
  intros A B f g F G s b r H. destruct (f s) as [[a r']|] eqn:E; [|discriminate]. destruct (F _ _ _ E) as (p & Es & X). destruct (G _ _ _ E _ _ _ H) as (p2 & E2 & Y).
  exists (p ++ p2). split; [rewrite Es, E2, app_assoc; reflexivity|]. intros q. rewrite <- app_assoc, X. apply Y.
Qed.
Lemma number_local : forall c, olocal (mp_number c).
Proof.
  intros c. unfold mp_number. cbv zeta. repeat apply if_local; try apply some_local; try apply none_local; apply omap_local, read_be_local.
Qed.
Lemma byteslen_local : forall c, olocal (mp_byteslen c).
Proof. intros c. unfold mp_byteslen. repeat apply if_local; try apply some_local; try apply none_local; apply read_be_local. Qed.
Lemma listlen_local : forall c, olocal (mp_listlen c).
Proof. intros c. unfold mp_listlen. repeat apply if_local; try apply some_local; try apply none_local; apply read_be_local. Qed.
Lemma mapsize_local : forall c, olocal (mp_mapsize c).
Proof. intros c. unfold mp_mapsize. repeat apply if_local; try apply some_local; try apply none_local; apply read_be_local. Qed.

(** one code, then something *)
Lemma coded_local : forall A (g : Z -> list Z -> mout A), (forall c, local (g c)) -> local (fun s => match s with [] => MFail | c :: s => g c s end).
Proof.
  intros A g G [|c s]; [split; intros; discriminate|]. destruct (G c s) as [X Y]. split.
  - intros a r H. destruct (X _ _ H) as (p & -> & Q). exists (c :: p). split; [reflexivity|]. exact Q.
  - intros r H. destruct (Y _ H) as (p & -> & Q). exists (c :: p). split; [reflexivity|]. exact Q.
Qed.
Lemma nil_local : forall A, local (fun s => @MNil A s).
Proof. intros A s. split; intros; [discriminate|]. injection H as <-. exists []. split; reflexivity. Qed.
Lemma ok_local : forall A (a : A), local (fun s => MOk a s).
Proof. intros A a s. split; intros; [|discriminate]. injection H as <- <-. exists []. split; reflexivity. Qed.
Lemma fail_local : forall A, local (fun s => @MFail A).
Proof. intros A s. split; intros; discriminate. Qed.
Lemma ifm_local : forall A (b : bool) (f g : list Z -> mout A), local f -> local g -> local (fun s => if b then f s else g s).
Proof. intros A [|] f g F G; assumption. Qed.
Lemma obindm_local : forall A B (f : list Z -> option (A * list Z)) (g : A -> list Z -> mout B), olocal f -> (forall a, local (g a)) -> local (fun s => match f s with Some (a, r) => g a r | None => MFail end).
Proof.
  intros A B f g F G s. destruct (f s) as [[a r']|] eqn:E; [|split; intros; discriminate]. destruct (F _ _ _ E) as (p & Es & X). destruct (G a r') as [Y Z]. split.
  - intros b r H. destruct (Y _ _ H) as (p2 & E2 & Q). exists (p ++ p2). split; [rewrite Es, E2, app_assoc; reflexivity|]. intros q. rewrite <- app_assoc, X. apply Q.
  - intros r H. destruct (Z _ H) as (p2 & E2 & Q). exists (p ++ p2). split; [rewrite Es, E2, app_assoc; reflexivity|]. intros q. rewrite <- app_assoc, X. apply Q.
Qed.
Lemma mmap_local : forall A B (h : A -> B) f, local f -> local (fun s => mmap h (f s)).
Proof.
  intros A B h f F s. destruct (F s) as [X Y]. split.
  - intros b r H. destruct (f s) as [a r'|r'|] eqn:E; try discriminate. cbn [mmap] in H. injection H as <- <-. destruct (X _ _ eq_refl) as (p & Es & Q). exists p. split; [exact Es|]. intros q. rewrite Q. reflexivity.
  - intros r H. destruct (f s) as [a r'|r'|] eqn:E; try discriminate. cbn [mmap] in H. injection H as <-. destruct (Y _ eq_refl) as (p & Es & Q). exists p. split; [exact Es|]. intros q. rewrite Q. reflexivity.
Qed.
(** what follows a value, or a nil *)
Lemma mbind_local : forall A B (f : list Z -> mout A) (g : A -> list Z -> mout B) (h : list Z -> mout B), local f -> (forall a, local (g a)) -> local h ->
  local (fun s => match f s with MOk a r => g a r | MNil r => h r | MFail => MFail end).
Proof.
  intros A B f g h F G H s. destruct (F s) as [X Y]. destruct (f s) as [a r'|r'|] eqn:E; [| |split; intros; discriminate].
  - destruct (X _ _ eq_refl) as (p & Es & Q). destruct (G a r') as [U V]. split.
    + intros b r K. destruct (U _ _ K) as (p2 & E2 & Q2). exists (p ++ p2). split; [rewrite Es, E2, app_assoc; reflexivity|]. intros q. rewrite <- app_assoc, Q. apply Q2.
    + intros r K. destruct (V _ K) as (p2 & E2 & Q2). exists (p ++ p2). split; [rewrite Es, E2, app_assoc; reflexivity|]. intros q. rewrite <- app_assoc, Q. apply Q2.
  - destruct (Y _ eq_refl) as (p & Es & Q). destruct (H r') as [U V]. split.
    + intros b r K. destruct (U _ _ K) as (p2 & E2 & Q2). exists (p ++ p2). split; [rewrite Es, E2, app_assoc; reflexivity|]. intros q. rewrite <- app_assoc, Q. apply Q2.
    + intros r K. destruct (V _ K) as (p2 & E2 & Q2). exists (p ++ p2). split; [rewrite Es, E2, app_assoc; reflexivity|]. intros q. rewrite <- app_assoc, Q. apply Q2.
Qed.
Lemma local_ext : forall A (f g : list Z -> mout A), (forall s, f s = g s) -> local f -> local g.
Proof. intros A f g E F s. destruct (F s) as [X Y]. split; intros; rewrite <- E in *; [destruct (X _ _ H) as (p & Es & Q)|destruct (Y _ H) as (p & Es & Q)]; exists p; (split; [exact Es|]); intros q; rewrite <- E; apply Q. Qed.

Lemma readBytes_local : local mp_readBytes.
Proof.
  apply (coded_local _ (fun c s => match mp_byteslen c s with Some (n, r) => if n =? -1 then MNil r else match take n r with Some (b, r) => MOk b r | None => MFail end | None => MFail end)).
  intros c. apply (obindm_local _ _ (mp_byteslen c) (fun n r => if n =? -1 then MNil r else match take n r with Some (b, r) => MOk b r | None => MFail end)); [apply byteslen_local|].
  intros n. apply ifm_local; [apply nil_local|]. apply (obindm_local _ _ (take n) (fun b r => MOk b r)); [apply take_local|]. intros b. apply ok_local.
Qed.
Lemma readNumber_local : local mp_readNumber.
Proof.
  apply (coded_local _ (fun c s => if c =? 192 then MNil s else match mp_number c s with Some (z, r) => MOk z r | None => MFail end)). intros c. apply ifm_local; [apply nil_local|].
  apply (obindm_local _ _ (mp_number c) (fun z r => MOk z r)); [apply number_local|]. intros z. apply ok_local.
Qed.
Lemma readBool_local : local mp_readBool.
Proof.
  apply (coded_local _ (fun c s => if c =? 192 then MNil s else if c =? 194 then MOk false s else if c =? 195 then MOk true s else MFail)). intros c. repeat apply ifm_local; [apply nil_local|apply ok_local|apply ok_local|apply fail_local].
Qed.
Lemma readKey_local : forall k, local (mp_readKey k).
Proof. intros [|bits|bits]; cbn [mp_readKey]; apply mmap_local; [exact readBytes_local|apply (mmap_local _ _ _ mp_readNumber)|apply (mmap_local _ _ _ mp_readNumber)]; exact readNumber_local. Qed.
Lemma count_local : forall (f : Z -> list Z -> option (Z * list Z)), (forall c, olocal (f c)) -> forall c, local (fun s => match f c s with Some (n, r) => if n =? -1 then MNil r else MOk (Z.to_nat n) r | None => MFail end).
Proof. intros f F c. apply (obindm_local _ _ (f c) (fun n r => if n =? -1 then MNil r else MOk (Z.to_nat n) r)); [apply F|]. intros n. apply ifm_local; [apply nil_local|apply ok_local]. Qed.
Lemma readList_local : local mp_readList.
Proof. apply (coded_local _ (fun c s => match mp_listlen c s with Some (n, r) => if n =? -1 then MNil r else MOk (Z.to_nat n) r | None => MFail end)). apply count_local. exact listlen_local. Qed.
Lemma readMap_local : local mp_readMap.
Proof.
  set (sz := fun c s => match mp_mapsize c s with Some (n, r) => if n =? -1 then MNil r else MOk (Z.to_nat n) r | None => MFail end).
  assert (S1 : forall c, local (sz c)) by (apply count_local; exact mapsize_local).
  apply (local_ext _ (fun s => match s with [] => MFail | c :: s => (fun c s => match ext_header c with None => sz c s | Some k => match take k s with Some (b, r) => (fun r => match r with [] => MFail | c :: s => sz c s end) r | None => MFail end end) c s end)).
  - intros [|c s]; [reflexivity|]. cbn [mp_readMap]. unfold sz. destruct (ext_header c) as [k|]; [|reflexivity]. destruct (take k s) as [[b [|c' r]]|]; reflexivity.
  - apply coded_local. intros c. destruct (ext_header c) as [k|]; [|apply S1]. apply (obindm_local _ _ (take k) (fun _ r => match r with [] => MFail | c :: s => sz c s end)); [apply take_local|]. intros _. apply coded_local. exact S1.
Qed.
Lemma over_local : forall f, olocal f -> olocal (fun s => match f s with Some (n, r) => match take n r with Some (_, r) => Some (0, r) | None => None end | None => None end).
Proof. intros f F. apply (obind_local _ _ f (fun n r => match take n r with Some (_, r) => Some (0, r) | None => None end) F). intros _ n _ _. apply (omap_local _ _ (fun _ => 0)). apply take_local. Qed.
Lemma skip_head_local : forall c, olocal (skip_head c).
Proof.
  intros c. unfold skip_head. cbv zeta.
  assert (FX : forall n, olocal (fun s => match take n s with Some (_, r) => Some (0, r) | None => None end)) by (intros n; apply (omap_local _ _ (fun _ => 0)), take_local).
  assert (EX : forall k, olocal (fun s => match (match read_be k s with Some (n, r) => Some (n + 1, r) | None => None end) with Some (n, r) => match take n r with Some (_, r) => Some (0, r) | None => None end | None => None end))
    by (intros k; apply over_local, (omap_local _ _ (fun n => n + 1)), read_be_local).
  repeat apply if_local; try apply some_local; try apply FX; try apply EX; try apply read_be_local; try apply none_local; [apply over_local, byteslen_local|]. apply (omap_local _ _ (fun n => 2 * n)). apply mapsize_local.
Qed.
Lemma skip_local : forall f n s r, mp_skip f n s = Some r -> exists p, s = p ++ r /\ forall q f', (length p <= f')%nat -> mp_skip f' n (p ++ q) = Some q.
Proof.
  assert (Z0 : forall n, n <= 0 -> forall f s, mp_skip f n s = Some s) by (intros n N [|f] s; cbn [mp_skip]; destruct (Z.leb_spec n 0); reflexivity || lia).
  induction f as [|f IH]; intros n s r H; cbn [mp_skip] in H; (destruct (Z.leb_spec n 0) as [L|L]; [injection H as <-; exists []; split; [reflexivity|]; intros q f' _; apply Z0; exact L|]); [discriminate|].
  destruct s as [|c s]; [discriminate|]. destruct (skip_head c s) as [[k t]|] eqn:E; [|discriminate]. destruct (skip_head_local c _ _ _ E) as (p1 & -> & G). destruct (IH _ _ _ H) as (p2 & -> & G2).
  exists (c :: p1 ++ p2). split; [cbn [app]; rewrite <- app_assoc; reflexivity|]. intros q [|f'] L2; [cbn [length] in L2; lia|]. cbn [length] in L2. rewrite app_length in L2.
  cbn [app mp_skip]. destruct (Z.leb_spec n 0); [lia|]. rewrite <- app_assoc, G. apply G2. lia.
Qed.

(** ** loops *)
Definition llocal {A} (f : list Z -> option (A * nat * list Z)) : Prop := forall s a k r, f s = Some (a, k, r) -> exists p, s = p ++ r /\ forall q, f (p ++ q) = Some (a, k, q).
Lemma slice_local : forall dec n, local dec -> llocal (mp_slice dec n).
Proof.
  intros dec n D. induction n as [|n IH]; intros s a k r H; cbn [mp_slice] in H; [injection H as <- <- <-; exists []; split; reflexivity|].
  destruct (dec s) as [v t|t|] eqn:E; try discriminate. destruct (mp_slice dec n t) as [[[l k'] r']|] eqn:E2; [|discriminate]. injection H as <- <- <-.
  destruct (proj1 (D s) _ _ E) as (p1 & -> & G). destruct (IH _ _ _ _ E2) as (p2 & -> & G2). exists (p1 ++ p2). split; [rewrite app_assoc; reflexivity|]. intros q. rewrite <- app_assoc. cbn [mp_slice]. rewrite G, G2. reflexivity.
Qed.
Lemma fields_local : forall decs n, Forall (fun d => local (snd d)) decs -> llocal (mp_fields decs n).
Proof.
  induction decs as [|[z dec] decs IH]; intros n F s a k r H.
  - cbn [mp_fields] in H. injection H as <- <- <-. exists []. split; reflexivity.
  - destruct n as [|n]; cbn [mp_fields] in H; [injection H as <- <- <-; exists []; split; reflexivity|].
    destruct (dec s) as [v t|t|] eqn:E; try discriminate. destruct (mp_fields decs n t) as [[[l k'] r']|] eqn:E2; [|discriminate]. injection H as <- <- <-.
    destruct (proj1 (Forall_inv F s) _ _ E) as (p1 & -> & G). destruct (IH _ (Forall_inv_tail F) _ _ _ _ E2) as (p2 & -> & G2). cbn [snd] in G. exists (p1 ++ p2). split; [rewrite app_assoc; reflexivity|]. intros q. rewrite <- app_assoc. cbn [mp_fields]. rewrite G, G2. reflexivity.
Qed.
Lemma entries_local : forall kdec vdec n acc, local kdec -> local vdec -> llocal (mp_entries kdec vdec n acc).
Proof.
  intros kdec vdec n acc K V. revert acc. induction n as [|n IH]; intros acc s a k r H; cbn [mp_entries] in H; [injection H as <- <- <-; exists []; split; reflexivity|].
  destruct (kdec s) as [x t|t|] eqn:E; try discriminate. destruct (vdec t) as [v u|u|] eqn:E2; try discriminate.
  destruct (proj1 (K s) _ _ E) as (p1 & -> & G). destruct (proj1 (V t) _ _ E2) as (p2 & -> & G2). destruct (IH _ _ _ _ _ H) as (p3 & -> & G3).
  exists (p1 ++ p2 ++ p3). split; [rewrite !app_assoc; reflexivity|]. intros q. rewrite <- !app_assoc. cbn [mp_entries]. rewrite G, G2. apply G3.
Qed.
Lemma close_local : forall A B (h : A -> B) f, llocal f -> local (fun s => mp_close h (f s)).
Proof.
  intros A B h f F s. split; intros x; [|intros H]; intros; unfold mp_close in *; (destruct (f s) as [[[a k] t]|] eqn:E; [|discriminate]); (destruct (mp_skip (S (length t)) (Z.of_nat k) t) as [u|] eqn:E2; [|discriminate]); try discriminate.
  injection H as <- <-. destruct (F _ _ _ _ E) as (p1 & -> & G). destruct (skip_local _ _ _ _ E2) as (p2 & -> & G2). exists (p1 ++ p2). split; [rewrite app_assoc; reflexivity|]. intros q. rewrite <- app_assoc, G, G2; [reflexivity|]. rewrite app_length. lia.
Qed.
Lemma nullable_local : forall z f, local f -> local (fun s => mnullable z (f s)).
Proof.
  intros z f F. apply (local_ext _ (fun s => match f s with MOk a r => (fun a r => MOk a r) a r | MNil r => (fun r => MOk z r) r | MFail => MFail end)); [intros s; destruct (f s); reflexivity|].
  apply (mbind_local _ _ f (fun a r => MOk a r) (fun r => MOk z r)); [exact F|intros a; apply ok_local|apply ok_local].
Qed.
Lemma decode_local : forall t, local (mp_decode t).
Proof.
  induction t as [|bits|bits| | |n|t IH|t IH|n t IH|fs IH|k t IH] using ty_ind2; cbn [mp_decode].
  - apply mmap_local, readBool_local.
  - apply mmap_local, (mmap_local _ _ _ mp_readNumber), readNumber_local.
  - apply mmap_local, (mmap_local _ _ _ mp_readNumber), readNumber_local.
  - apply mmap_local, readBytes_local.
  - apply (local_ext _ (fun s => match mp_readBytes s with MOk b r => (fun b r => MOk (VBytes (Some b)) r) b r | MNil r => (fun r => MOk (VBytes None) r) r | MFail => MFail end)); [intros s; destruct (mp_readBytes s); reflexivity|].
    apply (mbind_local _ _ mp_readBytes (fun b r => MOk (VBytes (Some b)) r) (fun r => MOk (VBytes None) r)); [exact readBytes_local|intros b; apply ok_local|apply ok_local].
  - apply mmap_local, readBytes_local.
  - apply mmap_local, IH.
  - apply (mbind_local _ _ mp_readList (fun k s => mp_close (fun l => VSlice (Some l)) (mp_slice (fun s => mnullable (zero t) (mp_decode t s)) k s)) (fun r => MOk (VSlice None) r)); [exact readList_local| |apply ok_local].
    intros k. apply close_local, slice_local, nullable_local, IH.
  - apply (mbind_local _ _ mp_readList (fun k s => mp_close VArray (mp_fields (repeat (zero t, fun s => mnullable (zero t) (mp_decode t s)) n) k s)) (fun r => MNil r)); [exact readList_local| |apply nil_local].
    intros k. apply close_local, fields_local. apply Forall_forall. intros d I. apply repeat_spec in I. subst d. apply nullable_local, IH.
  - apply (mbind_local _ _ mp_readList (fun k s => mp_close VStruct (mp_fields (map (fun t' => (zero t', fun s => mnullable (zero t') (mp_decode t' s))) fs) k s)) (fun r => MNil r)); [exact readList_local| |apply nil_local].
    intros k. apply close_local, fields_local. apply Forall_map. eapply Forall_impl; [|exact IH]. intros t H. apply nullable_local, H.
  - apply (mbind_local _ _ mp_readMap (fun n s => mp_close (fun m => VMap (Some m)) (mp_entries (mp_readKey k) (fun s => mnullable (zero t) (mp_decode t s)) n [] s)) (fun r => MOk (VMap None) r)); [exact readMap_local| |apply ok_local].
    intros n. apply close_local, entries_local; [apply readKey_local|apply nullable_local, IH].
Qed.

(** * Types *)
Lemma local_bytes : forall A (f : list Z -> mout A) s a r, local f -> f s = MOk a r -> bytes_ok s -> bytes_ok r.
Proof. intros A f s a r L E B. destruct (proj1 (L s) _ _ E) as (p & -> & _). apply Forall_app in B. apply B. Qed.
Lemma wrap_uint_val : forall bits z, int_width bits -> uint_value bits (wrap_uint bits z).
Proof. intros bits z W. unfold uint_value, wrap_uint. apply Z.mod_pos_bound. destruct W as [->|[->|[->| ->]]]; lia. Qed.
Lemma wrap_int_val : forall bits z, int_width bits -> int_value bits (wrap_int bits z).
Proof.
  intros bits z W. destruct (width_bounds _ W) as (_ & _ & E). assert (P : 0 < 2 ^ bits) by (destruct W as [->|[->|[->| ->]]]; lia). unfold int_value, wrap_int. pose proof (Z.mod_pos_bound z (2 ^ bits) P).
  destruct (Z.ltb_spec (z mod 2 ^ bits) (2 ^ (bits - 1))); lia.
Qed.
Lemma widths_struct : forall fs, go_widths (TStruct fs) -> Forall go_widths fs.
Proof. induction fs as [|f fs IH]; cbn [go_widths fold_right]; [constructor|intros [A B]; constructor; auto]. Qed.
Lemma bytes_zero : forall n, bytes_ok (repeat 0 n).
Proof. intros n. apply Forall_forall. intros x I. apply repeat_spec in I. subst x. red. lia. Qed.
Lemma zero_typed : forall t, go_widths t -> has_type t (zero t).
Proof.
  induction t as [|bits|bits| | |n|t IH|t IH|n t IH|fs IH|k t IH] using ty_ind2; intros W; try exact I.
  - split; [exact W|]. unfold uint_value. destruct W as [->|[->|[->| ->]]]; lia.
  - split; [exact W|]. unfold int_value. destruct W as [->|[->|[->| ->]]]; cbn; lia.
  - constructor.
  - split; [apply repeat_length|apply bytes_zero].
  - split; [apply repeat_length|]. apply Forall_forall. intros x I. apply repeat_spec in I. subst x. apply IH, W.
  - apply (proj2 (struct_types fs (map zero fs))). apply widths_struct in W. induction IH as [|t fs H F IHF]; cbn [map]; constructor; [apply H, (Forall_inv W)|apply IHF, (Forall_inv_tail W)].
Qed.
Lemma readBytes_bytes : forall s b r, bytes_ok s -> mp_readBytes s = MOk b r -> bytes_ok b.
Proof.
  intros [|c s] b r B H; [discriminate|]. cbn [mp_readBytes] in H. destruct (mp_byteslen c s) as [[n t]|] eqn:E; [|discriminate]. destruct (n =? -1); [discriminate|].
  destruct (take n t) as [[x u]|] eqn:T; [|discriminate]. injection H as <- <-. destruct (byteslen_local c _ _ _ E) as (p & -> & _). apply Forall_inv_tail in B. apply Forall_app in B as [_ B].
  unfold take in T. destruct ((0 <=? n) && (n <=? zlen t)); [|discriminate]. injection T as <- <-. rewrite <- (firstn_skipn (Z.to_nat n) t) in B. apply Forall_app in B. apply B.
Qed.
Definition typed (t : ty) (dec : list Z -> mout val) : Prop := forall s v r, bytes_ok s -> dec s = MOk v r -> has_type t v.
Lemma nullable_typed : forall t, go_widths t -> typed t (mp_decode t) -> typed t (fun s => mnullable (zero t) (mp_decode t s)).
Proof. intros t W T s v r B H. destruct (mp_decode t s) as [a u|u|] eqn:E; cbn [mnullable] in H; [injection H as <- <-; exact (T _ _ _ B E)|injection H as <- <-; apply zero_typed, W|discriminate]. Qed.
Lemma slice_typed : forall t dec n s l k r, local dec -> typed t dec -> bytes_ok s -> mp_slice dec n s = Some (l, k, r) -> Forall (has_type t) l.
Proof.
  intros t dec n. induction n as [|n IH]; intros s l k r L T B H; cbn [mp_slice] in H; [injection H as <- <- <-; constructor|].
  destruct (dec s) as [v u|u|] eqn:E; try discriminate. destruct (mp_slice dec n u) as [[[l' k'] r']|] eqn:E2; [|discriminate]. injection H as <- <- <-. constructor; [exact (T _ _ _ B E)|]. exact (IH _ _ _ _ L T (local_bytes _ _ _ _ _ L E B) E2).
Qed.
Lemma fields_typed : forall fs n s l k r, Forall (fun t => typed t (fun s => mnullable (zero t) (mp_decode t s))) fs -> Forall go_widths fs -> bytes_ok s ->
  mp_fields (map (fun t' => (zero t', fun s => mnullable (zero t') (mp_decode t' s))) fs) n s = Some (l, k, r) -> Forall2 has_type fs l.
Proof.
  induction fs as [|t fs IH]; intros n s l k r F W B H.
  - cbn [map mp_fields] in H. injection H as <- <- <-. constructor.
  - destruct n as [|n]; cbn [map mp_fields] in H.
    + injection H as <- <- <-. cbn [map fst]. constructor; [apply zero_typed, (Forall_inv W)|]. rewrite map_map. cbn [fst]. apply Forall_inv_tail in W. clear -W. induction W; cbn [map]; constructor; auto using zero_typed.
    + destruct (mnullable (zero t) (mp_decode t s)) as [v u|u|] eqn:E; try discriminate. destruct (mp_fields _ n u) as [[[l' k'] r']|] eqn:E2; [|discriminate]. injection H as <- <- <-. constructor; [exact (Forall_inv F _ _ _ B E)|].
      refine (IH _ _ _ _ _ (Forall_inv_tail F) (Forall_inv_tail W) _ E2). exact (local_bytes _ _ _ _ _ (nullable_local (zero t) _ (decode_local t)) E B).
Qed.
Lemma key_typed : forall k s x r, (match k with KInt bits | KUint bits => int_width bits | KString => True end) -> bytes_ok s -> mp_readKey k s = MOk x r -> key_has_kind k x.
Proof.
  intros [|bits|bits] s x r W B H; cbn [mp_readKey] in H.
  - unfold mp_readString in H. destruct (mp_readBytes s) as [b u|u|] eqn:E; try discriminate. cbn [mmap] in H. injection H as <- <-. exact (readBytes_bytes _ _ _ B E).
  - unfold mp_readInt in H. destruct (mp_readNumber s) as [z u|u|]; try discriminate. cbn [mmap] in H. injection H as <- <-. split; [exact W|apply wrap_int_val, W].
  - unfold mp_readUint in H. destruct (mp_readNumber s) as [z u|u|]; try discriminate. cbn [mmap] in H. injection H as <- <-. split; [exact W|apply wrap_uint_val, W].
Qed.
Lemma entries_typed : forall kk t vdec n acc s m k r, (match kk with KInt bits | KUint bits => int_width bits | KString => True end) -> local vdec -> typed t vdec -> bytes_ok s ->
  has_type (TMap kk t) (VMap (Some acc)) -> mp_entries (mp_readKey kk) vdec n acc s = Some (m, k, r) -> has_type (TMap kk t) (VMap (Some m)).
Proof.
  intros kk t vdec n. induction n as [|n IH]; intros acc s m k r W L T B A H; cbn [mp_entries] in H; [injection H as <- <- <-; exact A|].
  destruct (mp_readKey kk s) as [x u|u|] eqn:E; try discriminate. destruct (vdec u) as [v w|w|] eqn:E2; try discriminate.
  pose proof (local_bytes _ _ _ _ _ (readKey_local kk) E B) as B2. refine (IH _ _ _ _ _ W L T (local_bytes _ _ _ _ _ L E2 B2) _ H).
  destruct A as [S1 S2]. destruct (map_set_spec x v acc S1) as [S3 S4]. split; [exact S3|]. apply Forall_forall. intros [k' v'] I. apply S4 in I as [[-> ->]|[_ I]].
  - cbn [fst snd]. split; [exact (key_typed _ _ _ _ W B E)|exact (T _ _ _ B2 E2)].
  - rewrite Forall_forall in S2. exact (S2 _ I).
Qed.
Lemma close_some : forall A B (h : A -> B) x b r, mp_close h x = MOk b r -> exists a k s, x = Some (a, k, s) /\ b = h a.
Proof. intros A B h [[[a k] s]|] b r H; cbn [mp_close] in H; [|discriminate]. destruct (mp_skip _ _ s); [|discriminate]. injection H as <- <-. exists a, k, s. auto. Qed.
Lemma decode_typed : forall t, go_widths t -> typed t (mp_decode t).
Proof.
  induction t as [|bits|bits| | |n|t IH|t IH|n t IH|fs IH|k t IH] using ty_ind2; intros W s v r B H; cbn [mp_decode] in H.
  - destruct (mp_readBool s); try discriminate. cbn [mmap] in H. injection H as <- <-. exact I.
  - unfold mp_readUint in H. destruct (mp_readNumber s) as [z u|u|]; try discriminate. cbn [mmap] in H. injection H as <- <-. split; [exact W|apply wrap_uint_val, W].
  - unfold mp_readInt in H. destruct (mp_readNumber s) as [z u|u|]; try discriminate. cbn [mmap] in H. injection H as <- <-. split; [exact W|apply wrap_int_val, W].
  - unfold mp_readString in H. destruct (mp_readBytes s) as [b u|u|] eqn:E; try discriminate. cbn [mmap] in H. injection H as <- <-. exact (readBytes_bytes _ _ _ B E).
  - destruct (mp_readBytes s) as [b u|u|] eqn:E; try discriminate; cbn [mmap] in H; injection H as <- <-; [exact (readBytes_bytes _ _ _ B E)|exact I].
  - destruct (mp_readBytes s) as [b u|u|] eqn:E; try discriminate. cbn [mmap] in H. injection H as <- <-. split; [rewrite go_copy_length by lia; apply repeat_length|].
    unfold go_copy. apply Forall_app. split; [constructor|]. apply Forall_app. pose proof (readBytes_bytes _ _ _ B E) as BB. split; apply Forall_forall; intros x I.
    + apply (proj1 (Forall_forall _ _) BB). rewrite <- (firstn_skipn (Nat.min (length (repeat 0 n) - 0) (length b)) b). apply in_or_app. left. exact I.
    + apply (proj1 (Forall_forall _ _) (bytes_zero n)). rewrite <- (firstn_skipn (0 + Nat.min (length (repeat 0 n) - 0) (length b)) (repeat 0 n)). apply in_or_app. right. exact I.
  - destruct (mp_decode t s) as [x u|u|] eqn:E; try discriminate. cbn [mmap] in H. injection H as <- <-. exact (IH W _ _ _ B E).
  - destruct (mp_readList s) as [c u|u|] eqn:E; try discriminate; [|injection H as <- <-; exact I]. apply close_some in H as (l & k & w & H & ->). cbn [has_type].
    refine (slice_typed _ _ _ _ _ _ _ (nullable_local (zero t) _ (decode_local t)) (nullable_typed t W (IH W)) (local_bytes _ _ _ _ _ readList_local E B) H).
  - destruct (mp_readList s) as [c u|u|] eqn:E; try discriminate. apply close_some in H as (l & k & w & H & ->).
    rewrite <- (map_repeat _ _ (fun t' => (zero t', fun s => mnullable (zero t') (mp_decode t' s)))) in H. apply fields_typed in H; [| | |exact (local_bytes _ _ _ _ _ readList_local E B)].
    + cbn [has_type]. clear -H. remember (repeat t n) as ts eqn:X. revert n X. induction H as [|a v ts l A H IH]; intros [|n] X; try discriminate; [split; [reflexivity|constructor]|]. cbn [repeat] in X. injection X as -> X. destruct (IH _ X) as [<- IH2]. split; [reflexivity|constructor; assumption].
    + apply Forall_forall. intros x I. apply repeat_spec in I. subst x. exact (nullable_typed t W (IH W)).
    + apply Forall_forall. intros x I. apply repeat_spec in I. subst x. exact W.
  - destruct (mp_readList s) as [c u|u|] eqn:E; try discriminate. apply close_some in H as (l & k & w & H & ->). apply widths_struct in W.
    apply (proj2 (struct_types fs l)). refine (fields_typed _ _ _ _ _ _ _ W (local_bytes _ _ _ _ _ readList_local E B) H).
    clear -IH W. induction IH as [|t fs T F IHF]; constructor; [exact (nullable_typed _ (Forall_inv W) (T (Forall_inv W)))|exact (IHF (Forall_inv_tail W))].
  - destruct (mp_readMap s) as [c u|u|] eqn:E; try discriminate; [|injection H as <- <-; exact I]. apply close_some in H as (m & x & w & H & ->). destruct W as [W1 W2].
    refine (entries_typed _ _ _ _ _ _ _ _ _ W1 (nullable_local (zero t) _ (decode_local t)) (nullable_typed t W2 (IH W2)) (local_bytes _ _ _ _ _ readMap_local E B) _ H). split; constructor.
Qed.
