(** Lemmas about the offset accumulator: its state record. *)
From Coq Require Import String Ascii ZArith List Bool Lia.
From Coq Require Import ZifyBool.
From Verif Require Import Base L_Base M_IntConv M_Rlp L_Rlp M_Codec S_Codec L_Codec M_Mta S_Mta L_Mta L_Mta2 L_Mta3 L_Mta4.
Import ListNotations.
Open Scope Z_scope.

Lemma size_loop_len : forall n v acc, zlen (SizeToBytes_loop n v acc) <= Z.of_nat n + zlen acc.
Proof.
  induction n as [|n IH]; intros v acc; cbn [SizeToBytes_loop]; [lia|]. cbv zeta. destruct (_ =? 0); [rewrite zlen_cons; lia|].
  eapply Z.le_trans; [apply IH|]. rewrite zlen_cons. lia.
Qed.
Lemma sizeToBytes_len : forall v, zlen (sizeToBytes v) <= 8.
Proof.
  intros v. unfold sizeToBytes, SizeToBytes. destruct (_ =? 0); [cbn; lia|]. apply (size_loop_len 8 (u64 v) []).
Qed.
Lemma int_loop_len : forall n t v acc, zlen (Int64ToBytes_loop n t v acc) <= Z.of_nat n + zlen acc.
Proof.
  induction n as [|n IH]; intros t v acc; cbn [Int64ToBytes_loop]; [lia|]. cbv zeta. destruct (_ =? t); [rewrite zlen_cons; lia|].
  eapply Z.le_trans; [apply IH|]. rewrite zlen_cons. lia.
Qed.
Lemma writeBytes_len_le : forall b, zlen (writeBytes (Some b)) <= zlen b + 9.
Proof.
  intros b. unfold writeBytes. pose proof (sizeToBytes_len (zlen b)). destruct (Z.eqb_spec (zlen b) 0) as [E|]; [rewrite E; cbn; lia|].
  destruct (_ && _); [lia|]. destruct (_ <=? 55); rewrite zlen_cons; [lia|]. rewrite zlen_app. lia.
Qed.
Lemma writeList_len_le : forall b, zlen (writeList b) <= zlen b + 9.
Proof.
  intros b. unfold writeList. pose proof (sizeToBytes_len (zlen b)). destruct (Z.eqb_spec (zlen b) 0) as [E|]; [rewrite E; cbn; lia|].
  destruct (_ <=? 55); rewrite zlen_cons; [lia|]. rewrite zlen_app. lia.
Qed.
Lemma write_int_len_le : forall z, zlen (write_int z) <= 17.
Proof.
  intros z. unfold write_int. eapply Z.le_trans; [apply writeBytes_len_le|]. unfold Int64ToBytes.
  destruct (z =? 0); [cbn; lia|]. pose proof (int_loop_len 8 (if z <? 0 then -128 else 0) z []) as HL. change (zlen (@nil Z)) with 0 in HL. lia.
Qed.

Definition root_val (h : list Z) : val := VBytes (match h with [] => None | _ => Some h end).

Lemma roots_len : forall hs, Forall (fun h => zlen h <= 32) hs -> zlen (concat (map encodeValue (map root_val hs))) <= 41 * zlen hs.
Proof.
  intros hs HF. induction HF as [|h hs Hh HF IH]; [cbn; lia|]. cbn [map concat]. rewrite zlen_app, zlen_cons.
  assert (zlen (encodeValue (root_val h)) <= 41); [|lia].
  unfold root_val. destruct h as [|x h]; cbn [encodeValue]; [cbn; lia|]. pose proof (writeBytes_len_le (x :: h)). lia.
Qed.

Lemma ext_val_len : forall x hs, Forall (fun h => zlen h <= 32) hs -> (length hs <= 64)%nat -> zlen (MarshalToBytes (ext_val x hs)) < 2 ^ 63.
Proof.
  intros x hs HF HL. unfold MarshalToBytes, ext_val. fold root_val. cbn [encodeValue map concat]. rewrite app_nil_r.
  eapply Z.le_lt_trans; [apply writeList_len_le|]. rewrite !zlen_app.
  pose proof (write_int_len_le (x_Height x)). pose proof (write_int_len_le (x_offset x)). pose proof (write_int_len_le (x_limit x)).
  pose proof (writeList_len_le (concat (map encodeValue (map root_val hs)))) as HW. pose proof (roots_len hs HF). unfold zlen at 2 in H2.
  change (map (fun h => VBytes match h with [] => None | _ :: _ => Some h end) hs) with (map root_val hs). lia.
Qed.

Lemma ext_val_typed : forall x hs, Forall bytes_ok hs -> - 2 ^ 63 <= x_Height x < 2 ^ 63 -> - 2 ^ 63 <= x_offset x < 2 ^ 63 ->
  - 2 ^ 63 <= x_limit x < 2 ^ 63 -> has_type ext_ty (ext_val x hs).
Proof.
  intros x hs HF H1 H2 H3. unfold ext_ty, ext_val. cbn [has_type]. unfold int_width, int_value.
  split; [lia|]. split; [|lia]. induction HF as [|h hs Hh HF IH]; cbn [map]; constructor; [|assumption].
  destruct h; [exact I|assumption].
Qed.

Lemma bytes_of_root_val : forall hs, map bytes_of_val (map root_val hs) = hs.
Proof. induction hs as [|h hs IH]; [reflexivity|]. cbn [map]. rewrite IH. f_equal. destruct h; reflexivity. Qed.

Lemma ext_record : forall x hs, Forall bytes_ok hs -> Forall (fun h => zlen h <= 32) hs -> (length hs <= 64)%nat ->
  - 2 ^ 63 <= x_offset x < 2 ^ 63 -> - 2 ^ 63 <= x_limit x < 2 ^ 63 ->
  UnmarshalFromBytes ext_ty (MarshalToBytes (ext_val x hs)) = Ok (ext_val x hs, []).
Proof.
  intros x hs HF HL HN H1 H2. pose proof (ext_val_len x hs HL HN) as HLen. unfold MarshalToBytes in *.
  assert (HT : has_type ext_ty (ext_val x hs)) by (apply ext_val_typed; auto; unfold x_Height; apply i64_range).
  assert (HS : simple_pointers ext_ty) by (cbn; tauto).
  pose proof (decode_encode ext_ty (ext_val x hs) HS HT HLen []) as E. rewrite app_nil_r in E.
  unfold UnmarshalFromBytes. rewrite E. reflexivity.
Qed.

Lemma MarshalExt_nonempty : forall x hs, (length (MarshalToBytes (ext_val x hs)) =? 0)%nat = false.
Proof.
  intros x hs. unfold MarshalToBytes, ext_val. cbn [encodeValue]. set (b := concat _).
  pose proof (writeList_len b). pose proof (zlen_nonneg _ b). unfold zlen in *. destruct (Nat.eqb_spec (length (writeList b)) 0); [lia|reflexivity].
Qed.

Section Ext.
Context (H : list Z -> list Z) (HD : digest32 H) (HB : forall x, bytes_ok (H x)).
Context (e : Z -> list Z) (He : forall i, length (e i) = 32%nat) (Hb : forall i, bytes_ok (e i)).

Lemma nv_bytes : forall k q, bytes_ok (nv H e k q).
Proof using HB Hb. destruct k; intros q; cbn [nv]; auto. Qed.

Lemma roots_ok : forall st rs i m, slots H e st i m rs -> 
  Forall (fun h => bytes_ok h /\ zlen h <= 32) (map (fun x => match x with Some n => fst (node_Hash H n) | None => [] end) rs).
Proof using HB Hb HD He.
  intros st. induction rs as [|[n|] rs IH]; intros i m HS; cbn [map slots] in *; constructor.
  - destruct HS as (_ & HT & _). destruct (node_Hash_spec H HD e He _ _ _ _ HT) as [-> _]. split; [apply nv_bytes|].
    unfold zlen. rewrite nv_length by assumption. lia.
  - eapply IH. apply HS.
  - split; [constructor|cbn; lia].
  - eapply IH. apply HS.
Qed.

Lemma x_Flush_ok : forall key w x n w' x', length key <> 32%nat -> n < 2 ^ 62 ->
  - 2 ^ 62 <= x_offset x < 2 ^ 62 -> - 2 ^ 63 <= x_limit x < 2 ^ 63 ->
  inv H e (w_store w) n (x_acc x) -> x_Flush H key w x = (w', x', true) ->
  (inv H e (w_store w') n (x_acc x') /\ x_offset x' = x_offset x /\
   forall y, exists r, inv H e (w_store w') n r /\
     x_Recover key (w_store w') y = (with_acc y r, if x_offset y =? x_offset x then Ok tt else if x_offset y <? x_offset x then Err 12 else Err 13))
  \/ collides H.
Proof using HB Hb HD He.
  intros key w x n w' x' Hk Hn Ho Hl (I1 & I2 & I3) HF. unfold x_Flush in HF.
  destruct (flush_roots H w (a_roots (x_acc x))) as [[[w1 rs] hs] ok] eqn:E1.
  destruct (flush_roots_spec H HD e He _ _ _ _ _ _ _ _ I3 E1) as [(X & S1 & S2)|]; [|auto].
  destruct ok; [|discriminate]. destruct (S2 eq_refl) as (S3 & S4 & S5).
  destruct (wset w1 key (MarshalToBytes (ext_val x hs))) as [w2|] eqn:EW; [|discriminate].
  injection HF as <- <-. apply wset_some in EW. rewrite EW. left.
  split; [split; [assumption|]; split; [assumption|]; cbn [a_roots x_acc with_acc]; apply slots_key; assumption|]. split; [reflexivity|].
  intros y. exists {| a_roots := map root_of_hash hs; a_length := n |}. split.
  - split; [assumption|]. split; [reflexivity|]. cbn [a_roots]. apply slots_key; assumption.
  - unfold x_Recover. rewrite bset_same, MarshalExt_nonempty.
    pose proof (roots_ok _ _ _ _ S1) as HR. rewrite <- S5 in HR.
    rewrite ext_record.
    + unfold ext_val. fold root_val. change (map (fun h => VBytes match h with [] => None | _ :: _ => Some h end) hs) with (map root_val hs).
      rewrite bytes_of_root_val. unfold x_Height. rewrite (i64_small (a_length _ + _)) by lia.
      replace (i64 (a_length (x_acc x) + x_offset x - x_offset x)) with n by (rewrite i64_small; lia).
      destruct (Z.ltb_spec (x_offset y) (x_offset x)), (Z.eqb_spec (x_offset y) (x_offset x)), (Z.ltb_spec (x_offset x) (x_offset y)); try lia; reflexivity.
    + eapply Forall_impl; [|exact HR]. intros a [A _]. exact A.
    + eapply Forall_impl; [|exact HR]. intros a [_ A]. exact A.
    + rewrite S4. assert (length (a_roots (x_acc x)) <= 62)%nat; [|lia]. eapply slots_count; [|exact I3]. change (Z.of_nat 62) with 62. lia.
    + lia.
    + lia.
Qed.
End Ext.
