(** C90: the messages and records of the native coin service, as bytes. *)
From Coq Require Import String Ascii ZArith List Bool Lia.
From Coq Require Import ZifyBool.
From Verif Require Import Base L_Base M_IntConv S_IntConv L_IntConv M_Rlp S_Rlp L_Rlp S_Address S_BtpAddr M_JBmv S_JBmv M_Wire S_Wire L_Wire
  M_BtpAddr M_XCall M_JCall M_SBmc M_JMsg S_Msg L_Msg M_Ncs M_NcsBytes S_NcsBytes.
Import ListNotations.
Open Scope Z_scope.

Definition moves_of {A} (f : A -> rlp) (m : bmoves A) : rlp :=
  moves_tree (bm_from m) (bm_to m) (option_map (map (fun o => match o with Some a => f a | None => RNull end)) (bm_assets m)).
Definition asset_item (a : basset) : rlp := asset_tree (ba_name a) (ba_amount a).
Definition detail_item (d : bdetail) : rlp := detail_tree (bd_name d) (bd_amount d) (bd_fee d).

(** The service writes the format described, in its standard bytes; nulls included. *)
Theorem C90_writes : forall type data code t b r x l,
  wMessage type data = message_tree type data /\ wResponse code t = response_tree code t /\ wPair b = pair_tree (fst b) (snd b)
  /\ wRequest r = moves_of asset_item r /\ wTransaction x = moves_of detail_item x /\ encodeDetails l = rlp_write (RList (map detail_item l)).
Proof.
  intros type data code t b [rf rt [rl|]] [xf xt [xl|]] l; repeat split; reflexivity.
Qed.
Print Assumptions C90_writes.

Lemma gets_nbig : forall o, gets readNullableBig (num_item o) o.
Proof.
  intros [z|] b rest F; cbn [num_item] in F.
  - inversion F as [|? B L|]; subst. apply reads_nbig. cbn [int_item]. pose proof (bytes_len _ B L). unfold int_item. lia.
  - inversion F; subst. unfold readNullableBig, pbind, readNullable. change [248; 0] with writeNull. rewrite readBytes_null. reflexivity.
Qed.
Lemma gets_int : forall z, - 2 ^ 31 <= z < 2 ^ 31 -> gets readInt (int_item z) z.
Proof. intros z R b rest F. unfold readInt, pbind. rewrite (gets_big z b rest F). replace ((_ <=? z) && (z <? _)) with true by lia. reflexivity. Qed.
Lemma gets_asset : forall a, gets readAsset (asset_item a) a.
Proof. intros [n v]. unfold readAsset, asset_item, asset_tree. cbn [ba_name ba_amount]. apply gets_inList. intros by_ F. go F (gets_nullable n). go F (gets_nbig v). eexists. reflexivity. Qed.
Lemma gets_detail : forall d, gets readDetail (detail_item d) d.
Proof. intros [n v f]. unfold readDetail, detail_item, detail_tree. cbn [bd_name bd_amount bd_fee]. apply gets_inList. intros by_ F. go F (gets_nullable n). go F (gets_nbig v). go F (gets_nbig f). eexists. reflexivity. Qed.
Lemma gets_pair : forall b, gets readPair (pair_tree (fst b) (snd b)) b.
Proof. intros [x y]. unfold readPair, pair_tree. cbn [fst snd]. apply gets_inList. intros by_ F. go F (gets_nbig x). go F (gets_nbig y). eexists. reflexivity. Qed.
Lemma gets_moves : forall A (p : parser A) (f : A -> rlp) m, (forall a, gets p (f a) a /\ f a <> RNull) -> gets (readMoves p) (moves_of f m) m.
Proof.
  intros A p f [fr to l] G. unfold readMoves, moves_of, moves_tree. cbn [bm_from bm_to bm_assets]. apply gets_inList. intros by_ F. go F (gets_nullable fr). go F (gets_nullable to).
  assert (GL : gets (readNullableOf (listOf (readNullableOf p))) (list_or_null (option_map (map (fun o => match o with Some a => f a | None => RNull end)) l)) l).
  { destruct l as [l|]; [|apply gets_none]. apply gets_some; [discriminate|]. cbn [option_map]. apply gets_listOf. clear F. induction l as [|[a|] l IH]; cbn [map]; constructor; try exact IH; [apply gets_some; apply G|apply gets_none]. }
  go F GL. eexists. reflexivity.
Qed.
Lemma gets_resp : forall code t, gets readResponse (response_tree code t) (code, t).
Proof. intros c t. unfold readResponse, response_tree. apply gets_inList. intros by_ F. go F (gets_big c). go F (gets_nullable t). eexists. reflexivity. Qed.
Lemma gets_message : forall type data, - 2 ^ 31 <= type < 2 ^ 31 -> gets readNCSMessage (message_tree type data) (type, data).
Proof. intros ty d R. unfold readNCSMessage, message_tree. apply gets_inList. intros by_ F. go F (gets_int ty R). go F (gets_nullable d). eexists. reflexivity. Qed.

(** It reads all bytes of these trees, with anything after them left alone: what was written and what another writer of the format wrote,
    and gets the same back, nulls included.  The type of a message must fit 32 bits. *)
Theorem C90_reads :
  (forall type data b rest, - 2 ^ 31 <= type < 2 ^ 31 -> form (message_tree type data) b -> readNCSMessage (b ++ rest) = Some ((type, data), rest))
  /\ (forall code t b rest, form (response_tree code t) b -> readResponse (b ++ rest) = Some ((code, t), rest))
  /\ (forall p b rest, form (pair_tree (fst p) (snd p)) b -> readPair (b ++ rest) = Some (p, rest))
  /\ (forall r b rest, form (moves_of asset_item r) b -> readRequest (b ++ rest) = Some (r, rest))
  /\ (forall x b rest, form (moves_of detail_item x) b -> readTransaction (b ++ rest) = Some (x, rest)).
Proof.
  split; [intros ty d b rest R F; apply (gets_message ty d R b rest F)|]. split; [intros c t b rest F; apply (gets_resp c t b rest F)|]. split; [intros p b rest F; apply (gets_pair p b rest F)|]. split.
  - intros r b rest F. apply (gets_moves _ readAsset asset_item r); [intros a; split; [apply gets_asset|discriminate]|exact F].
  - intros x b rest F. apply (gets_moves _ readDetail detail_item x); [intros a; split; [apply gets_detail|discriminate]|exact F].
Qed.
Print Assumptions C90_reads.

Definition text_ok (o : option text) : Prop := match o with Some t => bytes_ok t | None => True end.
Lemma opt_ok : forall o, text_ok o -> rlp_ok (opt_item o).
Proof. intros [t|] H; exact H. Qed.
Lemma num_ok : forall o, rlp_ok (num_item o).
Proof. intros [z|]; [apply int_ok|exact I]. Qed.
Lemma moves_ok : forall A (f : A -> rlp) m, text_ok (bm_from m) -> text_ok (bm_to m) -> (forall l a, bm_assets m = Some l -> In (Some a) l -> rlp_ok (f a)) -> rlp_ok (moves_of f m).
Proof.
  intros A f [fr to l] H1 H2 H3. cbn [bm_from bm_to bm_assets] in *. unfold moves_of, moves_tree. cbn [bm_from bm_to bm_assets]. apply rlp_ok_list. repeat constructor; try (apply opt_ok; assumption). destruct l as [l|]; [|exact I]. cbn [option_map list_or_null]. apply rlp_ok_list.
  apply Forall_forall. intros t HT. apply in_map_iff in HT as ([a|] & <- & HA); [apply (H3 l a eq_refl HA)|exact I].
Qed.
Lemma fb_gets : forall A (p : parser A) t a, gets p t a -> rlp_ok t -> zlen (rlp_write t) < 2 ^ 32 -> fromBytes p (rlp_write t) = Some a.
Proof. intros A p t a G O L. apply (fromBytes_gets A p t a _ G). apply form_write; assumption. Qed.

(** A stored transaction, balance or property is read back as it was stored. *)
Theorem C90_stored : forall x p, text_ok (bm_from x) -> text_ok (bm_to x) -> (forall l d, bm_assets x = Some l -> In (Some d) l -> text_ok (bd_name d)) ->
  (zlen (rlp_write (wTransaction x)) < 2 ^ 32 -> fromBytes readTransaction (rlp_write (wTransaction x)) = Some x)
  /\ (zlen (rlp_write (wPair p)) < 2 ^ 32 -> fromBytes readPair (rlp_write (wPair p)) = Some p).
Proof.
  intros x p H1 H2 H3. destruct (C90_writes 0 None 0 None p (BMoves None None None) x []) as (_ & _ & EP & _ & EX & _). split; intros L.
  - rewrite EX in L |- *. apply fb_gets; [|apply moves_ok; try assumption|exact L].
    + apply (gets_moves _ readDetail detail_item x). intros a. split; [apply gets_detail|discriminate].
    + intros l d E HI. apply rlp_ok_list. repeat constructor; try apply num_ok. apply opt_ok, (H3 l d E HI).
  - rewrite EP in L |- *. apply fb_gets; [apply gets_pair| |exact L]. apply rlp_ok_list. repeat constructor; apply num_ok.
Qed.
Print Assumptions C90_stored.

(** What one service sends another one reads: a request names the account and the coins and amounts in their order, an answer its code,
    and so for the answer to an unknown type. *)
Theorem C90_arrives : forall code_of acct from to l c t, bytes_ok from -> bytes_ok to -> Forall (fun a => bytes_ok (fst a)) l -> bytes_ok t ->
  (zlen (request_out from to l) < 2 ^ 32 -> body_in code_of acct (request_out from to l) = Some (BRequest (acct (Some to)) (Some (map (fun a => Asset (code_of (Some (fst a))) (Some (snd a))) l))))
  /\ (zlen (answer_out c t) < 2 ^ 32 -> body_in code_of acct (answer_out c t) = Some (BResponse c))
  /\ (zlen (unknown_out t) < 2 ^ 32 -> body_in code_of acct (unknown_out t) = Some BUnknown).
Proof.
  intros code_of acct from to l c t HF HT HL Ht.
  assert (OUT : forall type d, - 2 ^ 31 <= type < 2 ^ 31 -> rlp_ok d -> zlen (message_bytes type (rlp_write d)) < 2 ^ 32 -> fromBytes readNCSMessage (message_bytes type (rlp_write d)) = Some (type, Some (rlp_write d)) /\ zlen (rlp_write d) < 2 ^ 32).
  { intros type d R O L. assert (LD : zlen (rlp_write d) < 2 ^ 32).
    { unfold message_bytes, wMessage in L. cbn [rlp_write map concat wntext writeNullableOf] in L. rewrite app_nil_r in L. pose proof (writeList_len (rlp_write (rint type) ++ writeBytes (Some (rlp_write d)))) as WL. rewrite zlen_app in WL. pose proof (writeBytes_len (rlp_write d)). pose proof (zlen_nonneg _ (rlp_write (rint type))). cbn [rlp_write] in *. lia. }
    split; [|exact LD]. unfold message_bytes in *. destruct (C90_writes type (Some (rlp_write d)) 0 None (None, None) (BMoves None None None) (BMoves None None None) []) as (EM & _). rewrite EM in L |- *.
    apply fb_gets; [apply gets_message, R| |exact L]. apply rlp_ok_list. repeat constructor; [apply int_ok|]. cbn [opt_item]. apply rlp_write_ok; [exact O|lia]. }
  split; [|split]; intros L.
  - set (r := BMoves (Some from) (Some to) (Some (map (fun a => Some (BAsset (Some (fst a)) (Some (snd a)))) l))).
    destruct (C90_writes 0 None 0 None (None, None) r (BMoves None None None) []) as (_ & _ & _ & ER & _).
    assert (OR : rlp_ok (wRequest r)). { rewrite ER. apply moves_ok; try assumption. intros l' a E HI. cbn [r bm_assets] in E. injection E as <-. apply in_map_iff in HI as (y & EQ & HY). injection EQ as <-. rewrite Forall_forall in HL. apply rlp_ok_list. repeat constructor; [apply (HL y HY)|apply int_ok]. }
    change (request_out from to l) with (message_bytes REQUEST_COIN_TRANSFER (rlp_write (wRequest r))) in *. destruct (OUT REQUEST_COIN_TRANSFER (wRequest r) ltac:(unfold REQUEST_COIN_TRANSFER; lia) OR L) as [E LD].
    unfold body_in. rewrite E. cbn [nbind fst snd Z.eqb REQUEST_COIN_TRANSFER]. rewrite ER in LD, OR |- *. rewrite (fb_gets _ readRequest _ r); [|apply (gets_moves _ readAsset asset_item r); intros a; split; [apply gets_asset|discriminate]|exact OR|exact LD].
    cbn [nbind r bm_to bm_assets option_map]. do 3 f_equal. rewrite map_map. apply map_ext. intros [n v]. reflexivity.
  - change (answer_out c t) with (message_bytes REPONSE_HANDLE_SERVICE (rlp_write (wResponse c (Some t)))) in *. assert (OR : rlp_ok (wResponse c (Some t))) by (apply rlp_ok_list; constructor; [apply int_ok|constructor; [exact Ht|constructor]]). destruct (OUT REPONSE_HANDLE_SERVICE _ ltac:(unfold REPONSE_HANDLE_SERVICE; lia) OR L) as [E LD].
    unfold body_in. rewrite E. cbn [nbind fst snd]. change (REPONSE_HANDLE_SERVICE =? REQUEST_COIN_TRANSFER) with false. change (REPONSE_HANDLE_SERVICE =? REPONSE_HANDLE_SERVICE) with true. cbv iota. change (wResponse c (Some t)) with (response_tree c (Some t)) in *. rewrite (fb_gets _ readResponse _ (c, Some t)); [reflexivity|apply gets_resp|exact OR|exact LD].
  - change (unknown_out t) with (message_bytes UNKNOWN_TYPE (rlp_write (wResponse RC_ERR (Some t)))) in *. assert (OR : rlp_ok (wResponse RC_ERR (Some t))) by (apply rlp_ok_list; constructor; [apply int_ok|constructor; [exact Ht|constructor]]). destruct (OUT UNKNOWN_TYPE _ ltac:(unfold UNKNOWN_TYPE; lia) OR L) as [E LD].
    unfold body_in. rewrite E. reflexivity.
Qed.
Print Assumptions C90_arrives.

(** 100 of the coin "A" and 7 of "B" from "x" to "y". *)
Definition ex_code (o : option text) : Z := match o with Some [c] => c | _ => 0 end.
Definition ex_acct (o : option text) : option Z := match o with Some [c] => Some c | _ => None end.
Example C90_ex : let b := request_out [120] [121] [([65], 100); ([66], 7)] in
  b = [204; 0; 138; 201; 120; 121; 198; 194; 65; 100; 194; 66; 7] /\ body_in ex_code ex_acct b = Some (BRequest (Some 121) (Some [Asset 65 (Some 100); Asset 66 (Some 7)])) /\ zlen b < 2 ^ 32.
Proof. vm_compute. repeat split; reflexivity. Qed.

(** Not so: a message has one form.  What follows the last field inside a list is passed over, so other bytes mean the same. *)
Theorem C90_one_form_refuted : exists b b', b <> b' /\ body_in ex_code ex_acct b = Some (BResponse 0) /\ body_in ex_code ex_acct b' = body_in ex_code ex_acct b.
Proof. exists (message_bytes 2 (rlp_write (RList [rint 0; RBytes [79]]))), (message_bytes 2 (rlp_write (RList [rint 0; RBytes [79]; RBytes [1; 2]]))). split; [vm_compute; discriminate|]. split; vm_compute; reflexivity. Qed.
Print Assumptions C90_one_form_refuted.
