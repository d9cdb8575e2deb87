(** Lemmas for codec.MP. *)
From Coq Require Import String Ascii ZArith List Bool Lia Permutation Sorted.
From Coq Require Import ZifyBool.
From Verif Require Import Base L_Base GoStr GoSort M_IntConv M_Rlp S_Rlp L_Rlp L_Address M_Codec S_Codec L_Codec M_MsgPack S_MsgPack.
Import ListNotations.
Open Scope Z_scope.

Ltac j4 j := let H := fresh in assert (H : j = 0 \/ j = 1 \/ j = 2 \/ j = 3) by lia; destruct H as [H|[H|[H|H]]]; [subst j ..].
Ltac j3 j := let H := fresh in assert (H : j = 0 \/ j = 1 \/ j = 2) by lia; destruct H as [H|[H|H]]; [subst j ..].
Ltac j2 j := let H := fresh in assert (H : j = 1 \/ j = 2) by lia; destruct H as [H|H]; [subst j ..].
Ltac j5 j := let H := fresh in assert (H : j = 0 \/ j = 1 \/ j = 2 \/ j = 3 \/ j = 4) by lia; destruct H as [H|[H|[H|[H|H]]]]; [subst j ..].

(** settle the comparisons of a code with constants *)
Ltac codes := repeat match goal with
  | |- context [(?a <=? ?b)] => first [replace (a <=? b) with true by lia | replace (a <=? b) with false by lia]
  | |- context [(?a =? ?b)] => first [replace (a =? b) with false by lia | replace (a =? b) with true by lia]
  end.
Lemma item_ind2 : forall P : item -> Prop,
  P INil -> (forall b, P (IBool b)) -> (forall z, P (INum z)) -> (forall d, P (IFloat d)) -> (forall s, P (IStr s)) -> (forall b, P (IBin b)) -> (forall k b, P (IExt k b)) ->
  (forall l, Forall P l -> P (IList l)) -> (forall l, Forall P (flat_map (fun kv => [fst kv; snd kv]) l) -> P (IPairs l)) -> forall i, P i.
Proof.
  intros P H1 H2 H3 H4 H5 H6 H7 H8 H9. fix IH 1. intros [|b|z|d|s|b|k b|l|l]; [exact H1|exact (H2 b)|exact (H3 z)|exact (H4 d)|exact (H5 s)|exact (H6 b)|exact (H7 k b)| |].
  - apply H8. induction l as [|i l IHl]; constructor; [exact (IH i)|exact IHl].
  - apply H9. induction l as [|[k v] l IHl]; cbn [flat_map app fst snd]; [constructor|]. constructor; [exact (IH k)|]. constructor; [exact (IH v)|exact IHl].
Qed.

(** ** bytes *)
Lemma take_app : forall d r, take (zlen d) (d ++ r) = Some (d, r).
Proof.
  intros d r. unfold take. rewrite zlen_app. pose proof (zlen_nonneg _ r). pose proof (zlen_nonneg _ d). destruct (Z.leb_spec 0 (zlen d)); [cbn [andb]|lia]. destruct (Z.leb_spec (zlen d) (zlen d + zlen r)); [|lia].
  unfold zlen. rewrite Nat2Z.id, firstn_app, skipn_app, Nat.sub_diag, firstn_all, skipn_all. cbn [firstn skipn app]. rewrite app_nil_r. reflexivity.
Qed.
Lemma take_app_n : forall n d r, zlen d = n -> take n (d ++ r) = Some (d, r).
Proof. intros n d r <-. apply take_app. Qed.
Lemma read_be_digits : forall j z d r, digits j z d -> read_be (2 ^ j) (d ++ r) = Some (z, r).
Proof. intros j z d r (L & _ & V). unfold read_be. rewrite take_app_n by exact L. rewrite V. reflexivity. Qed.
Lemma digits_nonneg : forall j z d, digits j z d -> 0 <= z.
Proof. intros j z d (_ & B & <-). apply be_val_bound. exact B. Qed.
Lemma digits_lt : forall j z d, digits j z d -> z < 256 ^ (2 ^ j).
Proof. intros j z d (L & B & <-). rewrite <- L. apply be_val_bound. exact B. Qed.
Lemma digits_be : forall k j z, 2 ^ j = Z.of_nat k -> 0 <= z < 256 ^ Z.of_nat k -> digits j z (be_fixed k z).
Proof. intros k j z E R. split; [unfold zlen; rewrite be_fixed_length; lia|]. split; [apply be_fixed_ok|]. rewrite be_val_be_fixed. apply Z.mod_small. exact R. Qed.
Lemma digits_be_mod : forall k j z, 2 ^ j = Z.of_nat k -> digits j (z mod 256 ^ Z.of_nat k) (be_fixed k z).
Proof. intros k j z E. split; [unfold zlen; rewrite be_fixed_length; lia|]. split; [apply be_fixed_ok|]. apply be_val_be_fixed. Qed.

(** ** numbers *)
Lemma signed_mod : forall bits z, 0 < bits -> - 2 ^ (bits - 1) <= z < 2 ^ (bits - 1) -> signed bits (z mod 2 ^ bits) = z.
Proof.
  intros bits z B R. assert (E : 2 ^ bits = 2 * 2 ^ (bits - 1)) by (rewrite <- Z.pow_succ_r by lia; f_equal; lia). unfold signed.
  destruct (Z.le_gt_cases 0 z).
  - rewrite Z.mod_small by lia. destruct (Z.ltb_spec z (2 ^ (bits - 1))); lia.
  - replace (z mod 2 ^ bits) with (z + 2 ^ bits) by (apply (Z.mod_unique _ _ (-1)); lia). destruct (Z.ltb_spec (z + 2 ^ bits) (2 ^ (bits - 1))); lia.
Qed.
Lemma number_read : forall z b r, number_form z b -> mp_readNumber (b ++ r) = MOk z r.
Proof.
  intros z b r [[R ->]|[[R ->]|(j & d & J & [[-> D]|(-> & D & R)])]]; cbn [app mp_readNumber].
  - destruct (Z.eqb_spec z 192); [lia|]. unfold mp_number. destruct (Z.leb_spec z 127); [reflexivity|lia].
  - destruct (Z.eqb_spec (256 + z) 192); [lia|]. unfold mp_number. destruct (Z.leb_spec (256 + z) 127); [lia|]. destruct (Z.leb_spec 224 (256 + z)); [|lia]. do 2 f_equal; lia.
  - apply (read_be_digits _ _ _ r) in D. j4 j.
    + change (mp_number (204 + 0) (d ++ r)) with (match read_be (2 ^ 0) (d ++ r) with Some (z, r) => Some (z, r) | None => None end). rewrite D. reflexivity.
    + change (mp_number (204 + 1) (d ++ r)) with (match read_be (2 ^ 1) (d ++ r) with Some (z, r) => Some (z, r) | None => None end). rewrite D. reflexivity.
    + change (mp_number (204 + 2) (d ++ r)) with (match read_be (2 ^ 2) (d ++ r) with Some (z, r) => Some (z, r) | None => None end). rewrite D. reflexivity.
    + change (mp_number (204 + 3) (d ++ r)) with (match read_be (2 ^ 3) (d ++ r) with Some (z, r) => Some (z, r) | None => None end). rewrite D. reflexivity.
  - apply (read_be_digits _ _ _ r) in D. apply signed_mod in R; [|lia]. j4 j.
    + change (mp_number (208 + 0) (d ++ r)) with (match read_be (2 ^ 0) (d ++ r) with Some (z, r) => Some (signed (8 * 2 ^ 0) z, r) | None => None end). rewrite D, R. reflexivity.
    + change (mp_number (208 + 1) (d ++ r)) with (match read_be (2 ^ 1) (d ++ r) with Some (z, r) => Some (signed (8 * 2 ^ 1) z, r) | None => None end). rewrite D, R. reflexivity.
    + change (mp_number (208 + 2) (d ++ r)) with (match read_be (2 ^ 2) (d ++ r) with Some (z, r) => Some (signed (8 * 2 ^ 2) z, r) | None => None end). rewrite D, R. reflexivity.
    + change (mp_number (208 + 3) (d ++ r)) with (match read_be (2 ^ 3) (d ++ r) with Some (z, r) => Some (signed (8 * 2 ^ 3) z, r) | None => None end). rewrite D, R. reflexivity.
Qed.
Lemma uint_read : forall bits z b r, int_width bits -> uint_value bits z -> number_form z b -> mp_readUint bits (b ++ r) = MOk z r.
Proof.
  intros bits z b r W V F. unfold mp_readUint. rewrite (number_read _ _ _ F). cbn [mmap]. destruct (width_bounds _ W) as (B & _). unfold uint_value in V.
  rewrite Z.mod_small by lia. rewrite wrap_uint_id by exact V. reflexivity.
Qed.
Lemma int_read : forall bits z b r, int_width bits -> int_value bits z -> number_form z b -> mp_readInt bits (b ++ r) = MOk z r.
Proof.
  intros bits z b r W V F. unfold mp_readInt. rewrite (number_read _ _ _ F). cbn [mmap]. destruct (width_bounds _ W) as (_ & B & _). unfold int_value in V.
  rewrite (wrap_int_id 64) by (unfold int_value; cbn; auto; (right; right; right; reflexivity) || lia). rewrite wrap_int_id by assumption. reflexivity.
Qed.

(** ** bytes and headers *)
Lemma byteslen_str : forall n h r, 0 <= n -> str_header n h -> exists c h', h = c :: h' /\ mp_byteslen c (h' ++ r) = Some (n, r).
Proof.
  intros n h r N [[L ->]|(j & d & J & D & ->)].
  - exists (160 + n), []. split; [reflexivity|]. unfold mp_byteslen. destruct (Z.eqb_spec (160 + n) 192); [lia|].
    destruct (Z.leb_spec 160 (160 + n)); [|lia]. destruct (Z.leb_spec (160 + n) 191); [|lia]. cbn [andb app]. do 2 f_equal. lia.
  - exists (217 + j), d. split; [reflexivity|]. apply (read_be_digits _ _ _ r) in D. j3 j; exact D.
Qed.
Lemma byteslen_bin : forall n h r, bin_header n h -> exists c h', h = c :: h' /\ mp_byteslen c (h' ++ r) = Some (n, r).
Proof. intros n h r (j & d & J & D & ->). exists (196 + j), d. split; [reflexivity|]. apply (read_be_digits _ _ _ r) in D. j3 j; exact D. Qed.
Lemma readBytes_ok : forall c h' b r, mp_byteslen c (h' ++ b ++ r) = Some (zlen b, b ++ r) -> mp_readBytes (((c :: h') ++ b) ++ r) = MOk b r.
Proof.
  intros c h' b r H. rewrite <- app_assoc. cbn [app mp_readBytes]. rewrite H. pose proof (zlen_nonneg _ b). destruct (Z.eqb_spec (zlen b) (-1)); [lia|]. rewrite take_app. reflexivity.
Qed.
Lemma str_read : forall s h r, str_header (zlen s) h -> mp_readBytes ((h ++ s) ++ r) = MOk s r.
Proof. intros s h r F. destruct (byteslen_str _ _ (s ++ r) (zlen_nonneg _ s) F) as (c & h' & -> & E). apply readBytes_ok. exact E. Qed.
Lemma bin_read : forall s h r, bin_header (zlen s) h -> mp_readBytes ((h ++ s) ++ r) = MOk s r.
Proof. intros s h r F. destruct (byteslen_bin _ _ (s ++ r) F) as (c & h' & -> & E). apply readBytes_ok. exact E. Qed.
Lemma listlen_ok : forall n h r, 0 <= n -> list_header n h -> exists c h', h = c :: h' /\ c <> 192 /\ mp_listlen c (h' ++ r) = Some (n, r) /\ mp_byteslen c (h' ++ r) = None.
Proof.
  intros n h r N [[L ->]|(j & d & J & D & ->)].
  - exists (144 + n), []. split; [reflexivity|]. split; [lia|]. unfold mp_listlen, mp_byteslen. cbn [app].
    destruct (Z.eqb_spec (144 + n) 192); [lia|]. destruct (Z.leb_spec 144 (144 + n)); [|lia]. destruct (Z.leb_spec (144 + n) 159); [|lia]. destruct (Z.leb_spec 160 (144 + n)); [lia|].
    repeat match goal with |- context [(?a =? ?b)] => destruct (Z.eqb_spec a b); [lia|] end. cbn [andb orb]. split; [do 2 f_equal; lia|reflexivity].
  - exists (219 + j), d. split; [reflexivity|]. split; [lia|]. apply (read_be_digits _ _ _ r) in D. j2 j; (split; [exact D|reflexivity]).
Qed.
Lemma mapsize_ok : forall n h r, 0 <= n -> map_header n h ->
  exists c h', h = c :: h' /\ c <> 192 /\ ext_header c = None /\ mp_mapsize c (h' ++ r) = Some (n, r) /\ mp_byteslen c (h' ++ r) = None /\ mp_listlen c (h' ++ r) = None.
Proof.
  intros n h r N [[L ->]|(j & d & J & D & ->)].
  - exists (128 + n), []. split; [reflexivity|]. split; [lia|]. unfold mp_listlen, mp_byteslen, mp_mapsize, ext_header. cbn [app].
    repeat match goal with |- context [(?a =? ?b)] => destruct (Z.eqb_spec a b); [lia|] end.
    repeat match goal with |- context [(?a <=? ?b)] => destruct (Z.leb_spec a b); try lia end. cbn [andb orb]. repeat split. do 2 f_equal. lia.
  - exists (221 + j), d. split; [reflexivity|]. split; [lia|]. apply (read_be_digits _ _ _ r) in D. j2 j; (split; [reflexivity|split; [exact D|split; reflexivity]]).
Qed.
Lemma list_read : forall n h r, list_header (Z.of_nat n) h -> mp_readList (h ++ r) = MOk n r.
Proof.
  intros n h r F. destruct (listlen_ok _ _ r (Nat2Z.is_nonneg n) F) as (c & h' & -> & _ & E & _). cbn [app mp_readList]. rewrite E. destruct (Z.eqb_spec (Z.of_nat n) (-1)); [lia|]. rewrite Nat2Z.id. reflexivity.
Qed.
Lemma map_read : forall n h r, map_header (Z.of_nat n) h -> mp_readMap (h ++ r) = MOk n r.
Proof.
  intros n h r F. destruct (mapsize_ok _ _ r (Nat2Z.is_nonneg n) F) as (c & h' & -> & _ & X & E & _). cbn [app mp_readMap]. rewrite X, E. destruct (Z.eqb_spec (Z.of_nat n) (-1)); [lia|]. rewrite Nat2Z.id. reflexivity.
Qed.

(** ** skipping *)
Lemma skip_more : forall f f' n s r, (f <= f')%nat -> mp_skip f n s = Some r -> mp_skip f' n s = Some r.
Proof.
  induction f as [|f IH]; intros f' n s r L H.
  - cbn [mp_skip] in H. destruct f'; cbn [mp_skip]; destruct (n <=? 0); try exact H; discriminate.
  - destruct f' as [|f']; [lia|]. cbn [mp_skip] in *. destruct (n <=? 0); [exact H|]. destruct s as [|c s]; [discriminate|].
    destruct (skip_head c s) as [[k t]|]; [|discriminate]. apply (IH f'); [lia|exact H].
Qed.
Definition skips (b : list Z) (count : Z) : Prop := forall f n rest r, 0 <= n -> mp_skip f n rest = Some r -> mp_skip (f + length b) (n + count) (b ++ rest) = Some r.
Lemma skip_one : forall c b k, (forall rest, skip_head c (b ++ rest) = Some (0, rest)) -> k = c :: b -> skips k 1.
Proof.
  intros c b k H -> f n rest r N HS. replace (f + length (c :: b))%nat with (S (f + length b)) by (cbn [length]; lia). cbn [app mp_skip]. destruct (Z.leb_spec (n + 1) 0); [lia|].
  rewrite H. replace (n + 1 - 1 + 0) with n by lia. eapply skip_more; [|exact HS]. lia.
Qed.
Lemma skip_bytes : forall h b,  (forall r, exists c h', h = c :: h' /\ mp_byteslen c (h' ++ r) = Some (zlen b, r)) -> (forall c h', h = c :: h' -> 160 <= c < 192 \/ 196 <= c <= 198 \/ 217 <= c <= 219) -> skips (h ++ b) 1.
Proof.
  intros h b H C. destruct (H []) as (c & h' & E & _). subst h. apply (skip_one c (h' ++ b)); [|reflexivity]. intros rest.
  destruct (H (b ++ rest)) as (c2 & h2 & E & HB). injection E as <- <-. rewrite <- app_assoc. pose proof (C _ _ eq_refl) as C1. clear C H. unfold skip_head. destruct C1 as [C1|[C1|C1]]; codes; cbn [andb orb]; rewrite HB, take_app; reflexivity.
Qed.
Lemma skip_all : forall l parts, Forall2 (fun (i : item) b => skips b 1) l parts -> skips (concat parts) (zlen l).
Proof.
  intros l parts F. induction F as [|i b l parts H F IH]; intros f n rest r N HS.
  - change (zlen (@nil item)) with 0. cbn [concat app length]. rewrite Nat.add_0_r, Z.add_0_r. exact HS.
  - cbn [concat]. rewrite <- app_assoc. assert (E : zlen (i :: l) = zlen l + 1) by (unfold zlen; cbn [length]; lia). rewrite E, app_length.
    replace (f + (length b + length (concat parts)))%nat with (f + length (concat parts) + length b)%nat by lia. rewrite Z.add_assoc.
    apply H; [pose proof (zlen_nonneg _ l); lia|]. apply IH; assumption.
Qed.
Lemma Forall2_impl_in : forall A B (P Q : A -> B -> Prop) l l', Forall (fun a => forall b, P a b -> Q a b) l -> Forall2 P l l' -> Forall2 Q l l'.
Proof. intros A B P Q l l' F G. induction G as [|a b l l' H G IH]; constructor; [exact (Forall_inv F _ H)|exact (IH (Forall_inv_tail F))]. Qed.
Lemma flat_pairs_len : forall A (l : list (A * A)), zlen (flat_map (fun kv => [fst kv; snd kv]) l) = 2 * zlen l.
Proof. intros A l. unfold zlen. induction l as [|a l IH]; [reflexivity|]. cbn [flat_map app length]. lia. Qed.
Lemma skip_form : forall i b, mp_form i b -> skips b 1.
Proof.
  induction i as [|b|z|d|s|b|k b|l IH|l IH] using item_ind2; intros x F; inversion F as [| | |? ? NF|? L|? L|? ? HH|? ? HH|? ? ? HH|? ? ? HH FF|? ? ? HH FF]; subst.
  - apply (skip_one 192 []); [|reflexivity]. intros rest. reflexivity.
  - apply (skip_one 194 []); [|reflexivity]. intros rest. reflexivity.
  - apply (skip_one 195 []); [|reflexivity]. intros rest. reflexivity.
  - destruct NF as [[R ->]|[[R ->]|(j & d & J & G)]].
    + apply (skip_one z []); [|reflexivity]. intros rest. unfold skip_head. destruct (Z.leb_spec z 127); [reflexivity|lia].
    + apply (skip_one (256 + z) []); [|reflexivity]. intros rest. unfold skip_head. destruct (Z.leb_spec 224 (256 + z)); [|lia]. rewrite orb_true_r. reflexivity.
    + destruct G as [[-> D]|(-> & D & _)]; destruct D as (L & _ & _); (eapply skip_one; [|reflexivity]); intros rest; pose proof (take_app_n _ _ rest L) as T;
        j4 j; [change (skip_head (204 + 0) (d ++ rest)) with (match take (2 ^ 0) (d ++ rest) with Some (_, r) => Some (0, r) | None => None end)
              |change (skip_head (204 + 1) (d ++ rest)) with (match take (2 ^ 1) (d ++ rest) with Some (_, r) => Some (0, r) | None => None end)
              |change (skip_head (204 + 2) (d ++ rest)) with (match take (2 ^ 2) (d ++ rest) with Some (_, r) => Some (0, r) | None => None end)
              |change (skip_head (204 + 3) (d ++ rest)) with (match take (2 ^ 3) (d ++ rest) with Some (_, r) => Some (0, r) | None => None end)
              |change (skip_head (208 + 0) (d ++ rest)) with (match take (2 ^ 0) (d ++ rest) with Some (_, r) => Some (0, r) | None => None end)
              |change (skip_head (208 + 1) (d ++ rest)) with (match take (2 ^ 1) (d ++ rest) with Some (_, r) => Some (0, r) | None => None end)
              |change (skip_head (208 + 2) (d ++ rest)) with (match take (2 ^ 2) (d ++ rest) with Some (_, r) => Some (0, r) | None => None end)
              |change (skip_head (208 + 3) (d ++ rest)) with (match take (2 ^ 3) (d ++ rest) with Some (_, r) => Some (0, r) | None => None end)];
        rewrite T; reflexivity.
  - eapply skip_one; [|reflexivity]. intros rest. change (skip_head 202 (d ++ rest)) with (match take 4 (d ++ rest) with Some (_, r) => Some (0, r) | None => None end). rewrite take_app_n by exact L. reflexivity.
  - eapply skip_one; [|reflexivity]. intros rest. change (skip_head 203 (d ++ rest)) with (match take 8 (d ++ rest) with Some (_, r) => Some (0, r) | None => None end). rewrite take_app_n by exact L. reflexivity.
  - apply skip_bytes; [intros r; apply byteslen_str; [apply zlen_nonneg|exact HH]|]. intros c h' E. pose proof (zlen_nonneg _ s). destruct HH as [[L ->]|(j & d & J & _ & ->)]; [assert (c = 160 + zlen s) by congruence|assert (c = 217 + j) by congruence]; lia.
  - apply skip_bytes; [intros r; apply byteslen_bin; exact HH|]. intros c h' E. destruct HH as (j & d & J & _ & ->); assert (c = 196 + j) by congruence; lia.
  - destruct HH as [(j & J & L & ->)|(h' & (j & d & J & D & ->) & ->)].
    + apply (skip_one (212 + j) (k :: b)); [|reflexivity]. intros rest. assert (T : take (1 + 2 ^ j) ((k :: b) ++ rest) = Some (k :: b, rest)) by (apply take_app_n; unfold zlen in *; cbn [length]; lia).
      j5 j; [change (skip_head (212 + 0) ((k :: b) ++ rest)) with (match take (1 + 2 ^ 0) ((k :: b) ++ rest) with Some (_, r) => Some (0, r) | None => None end)
            |change (skip_head (212 + 1) ((k :: b) ++ rest)) with (match take (1 + 2 ^ 1) ((k :: b) ++ rest) with Some (_, r) => Some (0, r) | None => None end)
            |change (skip_head (212 + 2) ((k :: b) ++ rest)) with (match take (1 + 2 ^ 2) ((k :: b) ++ rest) with Some (_, r) => Some (0, r) | None => None end)
            |change (skip_head (212 + 3) ((k :: b) ++ rest)) with (match take (1 + 2 ^ 3) ((k :: b) ++ rest) with Some (_, r) => Some (0, r) | None => None end)
            |change (skip_head (212 + 4) ((k :: b) ++ rest)) with (match take (1 + 2 ^ 4) ((k :: b) ++ rest) with Some (_, r) => Some (0, r) | None => None end)];
        rewrite T; reflexivity.
    + apply (skip_one (199 + j) (d ++ k :: b)); [|cbn [app]; rewrite <- app_assoc; reflexivity]. intros rest. rewrite <- app_assoc. apply (read_be_digits _ _ _ ((k :: b) ++ rest)) in D.
      assert (T : take (zlen b + 1) ((k :: b) ++ rest) = Some (k :: b, rest)) by (apply take_app_n; unfold zlen; cbn [length]; lia).
      j3 j; [change (skip_head (199 + 0) (d ++ (k :: b) ++ rest)) with (match (match read_be (2 ^ 0) (d ++ (k :: b) ++ rest) with Some (n, r) => Some (n + 1, r) | None => None end) with Some (n, r) => match take n r with Some (_, r) => Some (0, r) | None => None end | None => None end)
            |change (skip_head (199 + 1) (d ++ (k :: b) ++ rest)) with (match (match read_be (2 ^ 1) (d ++ (k :: b) ++ rest) with Some (n, r) => Some (n + 1, r) | None => None end) with Some (n, r) => match take n r with Some (_, r) => Some (0, r) | None => None end | None => None end)
            |change (skip_head (199 + 2) (d ++ (k :: b) ++ rest)) with (match (match read_be (2 ^ 2) (d ++ (k :: b) ++ rest) with Some (n, r) => Some (n + 1, r) | None => None end) with Some (n, r) => match take n r with Some (_, r) => Some (0, r) | None => None end | None => None end)];
        rewrite D, T; reflexivity.
  - pose proof (skip_all _ _ (Forall2_impl_in _ _ _ _ _ _ IH FF)) as SA. intros f n rest r N HS. rewrite <- app_assoc.
    destruct (listlen_ok _ _ (concat parts ++ rest) (zlen_nonneg _ l) HH) as (c & h' & -> & C & E & B).
    replace (f + length ((c :: h') ++ concat parts))%nat with (S (f + length h' + length (concat parts))) by (rewrite app_length; cbn [length]; lia).
    cbn [app mp_skip]. destruct (Z.leb_spec (n + 1) 0); [lia|].
    assert (SH : skip_head c (h' ++ concat parts ++ rest) = Some (zlen l, concat parts ++ rest)).
    { assert (CC : 144 <= c <= 159 \/ c = 220 \/ c = 221) by (pose proof (zlen_nonneg _ l); destruct HH as [[L EH]|(j & d & J & _ & EH)]; [assert (c = 144 + zlen l) by congruence|assert (c = 219 + j) by congruence]; lia).
      unfold skip_head. destruct CC as [CC|[CC|CC]]; codes; cbn [andb orb]; exact E. }
    rewrite SH. replace (n + 1 - 1 + zlen l) with (n + zlen l) by lia. eapply skip_more; [|apply SA; [exact N|exact HS]]. lia.
  - pose proof (skip_all _ _ (Forall2_impl_in _ _ _ _ _ _ IH FF)) as SA. rewrite flat_pairs_len in SA. intros f n rest r N HS. rewrite <- app_assoc.
    destruct (mapsize_ok _ _ (concat parts ++ rest) (zlen_nonneg _ l) HH) as (c & h' & -> & C & X & E & B & B2).
    replace (f + length ((c :: h') ++ concat parts))%nat with (S (f + length h' + length (concat parts))) by (rewrite app_length; cbn [length]; lia).
    cbn [app mp_skip]. destruct (Z.leb_spec (n + 1) 0); [lia|].
    assert (SH : skip_head c (h' ++ concat parts ++ rest) = Some (2 * zlen l, concat parts ++ rest)).
    { assert (CC : 128 <= c <= 143 \/ c = 222 \/ c = 223) by (pose proof (zlen_nonneg _ l); destruct HH as [[L EH]|(j & d & J & _ & EH)]; [assert (c = 128 + zlen l) by congruence|assert (c = 221 + j) by congruence]; lia).
      unfold skip_head. destruct CC as [CC|[CC|CC]]; codes; cbn [andb orb]; rewrite E; reflexivity. }
    rewrite SH. replace (n + 1 - 1 + 2 * zlen l) with (n + 2 * zlen l) by lia. eapply skip_more; [|apply SA; [exact N|exact HS]]. lia.
Qed.
