(** Theorems about the RLP stream format: C08, C09, C11 (stream level), C13, C14. *)
From Coq Require Import String Ascii ZArith List Bool Lia.
From Coq Require Import ZifyBool.
From Verif Require Import Base L_Base M_IntConv S_IntConv L_IntConv M_Rlp S_Rlp L_Rlp M_Codec S_Codec L_Codec.
Import ListNotations.
Open Scope Z_scope.

(** ** C08 *)

(** What is written is RLP (yellow paper) extended with the nil marker. *)
Theorem C08_written_is_rlp : forall t, rlp_ok t -> zlen (rlp_write t) < 2 ^ 63 -> rlp_spec t (rlp_write t).
Proof. exact rlp_write_spec. Qed.
Print Assumptions C08_written_is_rlp.

Theorem C08_read_write : forall sh t rest, has_shape sh t -> rlp_ok t -> zlen (rlp_write t) < 2^63 ->
  rlp_read sh (rlp_write t ++ rest) = ROk t rest.
Proof. exact rlp_read_write. Qed.
Print Assumptions C08_read_write.

(** A byte string is not taken for a list, nor a list for a byte string. *)
Theorem C08_kind_mismatch : forall rest,
  (forall b, bytes_ok b -> zlen b < 2 ^ 63 -> readList (rlp_write (RBytes b) ++ rest) = RFail) /\
  (forall l, zlen (rlp_write (RList l)) < 2 ^ 63 -> readBytes (rlp_write (RList l) ++ rest) = RFail).
Proof.
  intros rest. split.
  - intros b H1 H2. apply readList_bytes; assumption.
  - intros l H. apply readBytes_list. destruct (small_children l H). assumption.
Qed.
Print Assumptions C08_kind_mismatch.

Definition ex_tree : rlp := RList [RBytes (repeat 7 60); RNull; RList [RBytes []; RBytes [200]; RList []]].
Definition ex_shape : shape := ShList [ShBytes; ShList []; ShList [ShBytes; ShBytes; ShList []]].
Example C08_ex : has_shape ex_shape ex_tree /\ rlp_ok ex_tree /\ zlen (rlp_write ex_tree) < 2^63 /\
  rlp_read ex_shape (rlp_write ex_tree ++ [1; 2]) = ROk ex_tree [1; 2].
Proof.
  split; [cbn; tauto|]. split.
  - unfold ex_tree. cbn [rlp_ok fold_right]. repeat split; repeat constructor; lia.
  - split; vm_compute; reflexivity.
Qed.

(** ** C09 *)
Theorem C09_prefix_free : forall t1 t2 rest1 rest2,
  rlp_ok t1 -> rlp_ok t2 -> zlen (rlp_write t1) < 2^63 -> zlen (rlp_write t2) < 2^63 ->
  rlp_write t1 ++ rest1 = rlp_write t2 ++ rest2 -> t1 = t2 /\ rest1 = rest2.
Proof. intros. apply rlp_prefix_free; assumption. Qed.
Print Assumptions C09_prefix_free.

Theorem C09_injective : forall t1 t2,
  rlp_ok t1 -> rlp_ok t2 -> zlen (rlp_write t1) < 2^63 -> zlen (rlp_write t2) < 2^63 ->
  rlp_write t1 = rlp_write t2 -> t1 = t2.
Proof.
  intros t1 t2 H1 H2 H3 H4 H. apply (f_equal (fun s => s ++ [])) in H.
  apply rlp_prefix_free in H as [H _]; assumption.
Qed.
Print Assumptions C09_injective.

(** Sequences of items written one after the other are not confused either. *)
Theorem C09_sequences_injective : forall l1 l2, rlp_ok (RList l1) -> rlp_ok (RList l2) ->
  zlen (rlp_write (RList l1)) < 2^63 -> zlen (rlp_write (RList l2)) < 2^63 ->
  concat (map rlp_write l1) = concat (map rlp_write l2) -> l1 = l2.
Proof.
  intros l1 l2 H1 H2 H3 H4 H. assert (E : RList l1 = RList l2); [|congruence].
  apply C09_injective; try assumption. cbn [rlp_write]. rewrite H. reflexivity.
Qed.
Print Assumptions C09_sequences_injective.

Example C09_ex : rlp_ok ex_tree /\ rlp_ok (RBytes (repeat 1 300)) /\ rlp_write ex_tree <> rlp_write (RBytes (repeat 1 300)).
Proof.
  split; [apply C08_ex|]. split; [|vm_compute; discriminate].
  cbn [rlp_ok]. apply Forall_forall. intros x Hx. apply repeat_spec in Hx. subst. vm_compute; intuition congruence.
Qed.

(** The converse does not hold: several byte strings decode to one value (superfluous headers and
    size bytes are accepted), so received bytes cannot be compared by re-encoding. *)
Theorem C09_only_canonical_accepted_refuted :
  exists s t, readBytes s = ROk t [] /\ writeBytes (Some t) <> s.
Proof. exists [129; 1], [1]. split; vm_compute; [reflexivity|discriminate]. Qed.
Print Assumptions C09_only_canonical_accepted_refuted.

(** ** C11, stream level: the nil marker is no prefix of, and does not start with, any other encoding *)
Theorem C11_nil_marker_distinct : forall t rest1 rest2, rlp_ok t -> zlen (rlp_write t) < 2^63 ->
  rlp_write RNull ++ rest1 = rlp_write t ++ rest2 -> t = RNull.
Proof.
  intros t r1 r2 H1 H2 H. symmetry. apply (rlp_prefix_free RNull t r1 r2); try assumption; [vm_compute; reflexivity|exact I].
Qed.
Print Assumptions C11_nil_marker_distinct.

Theorem C11_stream_nil_vs_empty : forall rest,
  readBytes (writeBytes None ++ rest) = RNil rest /\ readList (writeNull ++ rest) = RNil rest /\
  readBytes (writeBytes (Some []) ++ rest) = ROk [] rest /\ readList (writeList [] ++ rest) = ROk [] rest.
Proof.
  intros rest. split; [apply readBytes_null|]. split; [apply readList_null|].
  split; [apply readBytes_write; [constructor|cbn; lia]|apply readList_write; cbn; lia].
Qed.
Print Assumptions C11_stream_nil_vs_empty.

(** ** C13 *)
Definition rejected {A} (r : rout A) : Prop := r = REof \/ r = RFail.

Theorem C13_bytes_truncated : forall b k, bytes_ok b -> zlen b < 2^63 ->
  (k < length (writeBytes (Some b)))%nat -> rejected (readBytes (firstn k (writeBytes (Some b)))).
Proof. intros. apply readBytes_truncated; assumption. Qed.
Print Assumptions C13_bytes_truncated.

Theorem C13_nil_truncated : forall k, (k < length writeNull)%nat ->
  rejected (readBytes (firstn k writeNull)) /\ rejected (readList (firstn k writeNull)).
Proof. intros [|[|k]] H; cbn in H; [| |lia]; unfold rejected; vm_compute; auto. Qed.
Print Assumptions C13_nil_truncated.

Theorem C13_scalars_truncated : forall bits k, int_width bits ->
  (forall z, uint_value bits z -> (k < length (encodeValue (VUint z)))%nat ->
             rejected (decodeValue (TUint bits) (firstn k (encodeValue (VUint z))))) /\
  (forall z, int_value bits z -> (k < length (encodeValue (VInt z)))%nat ->
             rejected (decodeValue (TInt bits) (firstn k (encodeValue (VInt z))))) /\
  (forall s, bytes_ok s -> zlen s < 2^63 -> (k < length (encodeValue (VString s)))%nat ->
             rejected (decodeValue TString (firstn k (encodeValue (VString s))))).
Proof.
  intros bits k Hw. destruct (width_bounds bits Hw) as (W1 & W2 & _). unfold uint_value, int_value.
  assert (HR : forall A B (f : A -> B) r, rejected r -> rejected (rmap f r)) by (intros A B f r [->| ->]; [left|right]; reflexivity).
  split; [|split].
  - intros z Hz Hk. cbn [decodeValue encodeValue] in *. unfold write_uint, read_uint in *. apply HR, HR.
    apply readBytes_truncated; [apply uint_bytes_ok; lia|apply uint_len; lia|assumption].
  - intros z Hz Hk. cbn [decodeValue encodeValue] in *. unfold write_int, read_int in *. apply HR, HR.
    apply readBytes_truncated; [apply int_bytes_ok; lia|apply int_len; lia|assumption].
  - intros s H1 H2 Hk. cbn [decodeValue encodeValue] in *. unfold write_string, read_string in *. apply HR.
    apply readBytes_truncated; assumption.
Qed.
Print Assumptions C13_scalars_truncated.

Example C13_ex : int_width 64 /\ uint_value 64 (2^63 + 5) /\ (4 < length (encodeValue (VUint (2^63 + 5))))%nat /\
  decodeValue (TUint 64) (firstn 4 (encodeValue (VUint (2^63 + 5)))) = RFail.
Proof.
  split; [right; right; right; reflexivity|]. split; [unfold uint_value; lia|].
  split; [vm_compute; lia|vm_compute; reflexivity].
Qed.

(** Lists are different: a list cut short is accepted as a shorter list, and the missing elements go
    unnoticed. *)
Theorem C13_list_truncation_refuted :
  exists v k w, has_type (TSlice (TUint 64)) v /\ (k < length (encodeValue v))%nat /\
    UnmarshalFromBytes (TSlice (TUint 64)) (firstn k (encodeValue v)) = Ok (w, []) /\ w <> v.
Proof.
  exists (VSlice (Some [VUint 1; VUint 2])), 2%nat, (VSlice (Some [VUint 1])).
  split; [cbn; repeat constructor; try lia; right; right; right; reflexivity|].
  split; [vm_compute; lia|]. split; [vm_compute; reflexivity|discriminate].
Qed.
Print Assumptions C13_list_truncation_refuted.

(** ** C14 *)
Theorem C14_skip_and_raw_one : forall t rest, rlp_ok t -> zlen (rlp_write t) < 2^63 ->
  skipOne (rlp_write t ++ rest) = ROk tt rest /\ readRaw (rlp_write t ++ rest) = ROk (rlp_write t) rest.
Proof. exact skip_raw_write. Qed.
Print Assumptions C14_skip_and_raw_one.

Theorem C14_skip_many : forall l rest, rlp_ok (RList l) -> zlen (rlp_write (RList l)) < 2^63 ->
  rlp_Skip (length l) (concat (map rlp_write l) ++ rest) = ROk tt rest.
Proof.
  intros l rest Hok Hl. destruct (small_children l Hl) as [_ HS]. apply rlp_ok_in in Hok. clear Hl.
  revert Hok HS. induction l as [|t l IH]; intros Hok HS; [reflexivity|].
  inversion Hok; inversion HS; subst. cbn [length rlp_Skip map concat]. rewrite <- app_assoc.
  destruct (skip_raw_write t (concat (map rlp_write l) ++ rest)) as [-> _]; auto.
Qed.
Print Assumptions C14_skip_many.

(** The raw bytes of an item decode to the item. *)
Theorem C14_raw_redecodes : forall t sh rest raw rest', has_shape sh t -> rlp_ok t -> zlen (rlp_write t) < 2^63 ->
  readRaw (rlp_write t ++ rest) = ROk raw rest' -> rlp_read sh raw = ROk t [].
Proof.
  intros t sh rest raw rest' Hs Hok Hl H. destruct (skip_raw_write t rest Hok Hl) as [_ E]. rewrite E in H.
  assert (raw = rlp_write t) by congruence. subst raw.
  rewrite <- (app_nil_r (rlp_write t)). apply rlp_read_write; assumption.
Qed.
Print Assumptions C14_raw_redecodes.

(** On arbitrary input, reading raw splits the input and agrees with skipping. *)
Theorem C14_raw_splits_input : forall s raw rest, readRaw s = ROk raw rest ->
  s = raw ++ rest /\ raw <> [] /\ skipOne s = ROk tt rest.
Proof. exact readRaw_splits. Qed.
Print Assumptions C14_raw_splits_input.

Example C14_ex : rlp_ok ex_tree /\ readRaw (rlp_write ex_tree ++ [9]) = ROk (rlp_write ex_tree) [9] /\
  rlp_Skip 3 (concat (map rlp_write [ex_tree; RNull; RBytes [1]]) ++ [9]) = ROk tt [9].
Proof. split; [apply C08_ex|]. split; vm_compute; reflexivity. Qed.

(** With a size field of 2^63 or more the skip consumes only the header and reports success, where
    reading the same item raw panics. *)
Theorem C14_skip_huge_size_refuted :
  exists s rest, skipOne s = ROk tt rest /\ readRaw s = RPanic /\ readBytes s = RPanic.
Proof. exists (191 :: repeat 255 8 ++ [1; 2]), [1; 2]. repeat split; vm_compute; reflexivity. Qed.
Print Assumptions C14_skip_huge_size_refuted.
