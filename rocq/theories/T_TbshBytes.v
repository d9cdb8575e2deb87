(** C92: the messages, records and addresses of the token service, as bytes. *)
From Coq Require Import String Ascii ZArith List Bool Lia.
From Coq Require Import ZifyBool.
From Verif Require Import Base L_Base M_IntConv S_IntConv L_IntConv M_Rlp S_Rlp L_Rlp S_Address S_BtpAddr M_JBmv S_JBmv M_Wire S_Wire L_Wire
  M_BtpAddr M_XCall M_JCall M_SBmc M_JMsg S_Msg L_Msg M_Tbsh M_TbshBytes S_TbshBytes M_Ncs M_NcsBytes S_NcsBytes T_NcsBytes.
Import ListNotations.
Open Scope Z_scope.

Definition x_asset (a : xasset) : rlp := t_asset (xa_name a) (xa_value a) (xa_fee a).
Definition x_move (m : xmove) : rlp := t_move (xm_from m) (xm_to m) (map x_asset (xm_assets m)).
Definition x_bal (b : tbal) : rlp := t_balance (l_usable b) (l_locked b) (l_refundable b).
Definition x_tok (t : xtok) : rlp := t_token (xt_name t) (xt_symbol t) (xt_decimals t) (xt_num t).
Definition asset_ok (a : xasset) : Prop := bytes_ok (xa_name a).
Definition move_ok (m : xmove) : Prop := bytes_ok (xm_from m) /\ bytes_ok (xm_to m) /\ Forall asset_ok (xm_assets m).
Definition tok_ok (t : xtok) : Prop := bytes_ok (xt_name t) /\ bytes_ok (xt_symbol t).

(** The service writes the format described. *)
Theorem C92_writes : forall m code t l b k p n c,
  request_bytes m = rlp_write (t_request (rlp_write (x_move m))) /\ answer_bytes code t = rlp_write (t_answer (rlp_write (t_code code t)))
  /\ unknown_bytes = rlp_write t_unknown /\ assets_bytes l = rlp_write (RList (map x_asset l)) /\ wBal b = x_bal b /\ wTok k = x_tok k /\ wAddr (p, n, c) = t_address p n c.
Proof. intros. repeat split. Qed.
Print Assumptions C92_writes.

Lemma gets_xasset : forall a, gets readXAsset (x_asset a) a.
Proof. intros [n v f]. unfold readXAsset, x_asset, t_asset. cbn [xa_name xa_value xa_fee]. apply gets_inList. intros by_ F. go F (gets_bytes n). go F (gets_big v). go F (gets_big f). eexists. reflexivity. Qed.
Lemma gets_xmove : forall m, gets readXMove (x_move m) m.
Proof.
  intros [f t l]. unfold readXMove, x_move, t_move. cbn [xm_from xm_to xm_assets]. apply gets_inList. intros by_ F. go F (gets_bytes f). go F (gets_bytes t).
  assert (GL : gets (listOf readXAsset) (RList (map x_asset l)) l). { apply gets_listOf. clear F. induction l as [|a l IH]; cbn [map]; constructor; [apply gets_xasset|exact IH]. }
  go F GL. eexists. reflexivity.
Qed.
Lemma gets_bal : forall b, gets readBal (x_bal b) b.
Proof. intros [u l r]. unfold readBal, x_bal, t_balance. cbn [l_usable l_locked l_refundable]. apply gets_inList. intros by_ F. go F (gets_big u). go F (gets_big l). go F (gets_big r). eexists. reflexivity. Qed.
Lemma gets_tok : forall t, gets readTok (x_tok t) t.
Proof. intros [n s d m]. unfold readTok, x_tok, t_token. cbn [xt_name xt_symbol xt_decimals xt_num]. apply gets_inList. intros by_ F. go F (gets_bytes n). go F (gets_bytes s). go F (gets_big d). go F (gets_big m). eexists. reflexivity. Qed.
Lemma gets_addr : forall p n c, last_index DOT_ n <> None -> gets readAddr (t_address p n c) (p, n, c).
Proof. intros p n c D. unfold readAddr, t_address. apply gets_inList. intros by_ F. go F (gets_bytes p). go F (gets_bytes n). go F (gets_bytes c). unfold new_address. destruct (last_index DOT_ n); [|congruence]. eexists. reflexivity. Qed.
Lemma gets_code : forall c t, - 2 ^ 31 <= c < 2 ^ 31 -> gets readAnswer (t_code c t) (c, t).
Proof. intros c t R. unfold readAnswer, t_code. apply gets_inList. intros by_ F. go F (gets_int c R). go F (gets_bytes t). eexists. reflexivity. Qed.
Lemma gets_some_bytes : forall b, gets readNullable (RBytes b) (Some b).
Proof. intros b. apply (gets_nullable (Some b)). Qed.
Lemma gets_request : forall d, gets readType (t_request d) (0, Some d).
Proof. intros d. unfold readType, t_request. apply gets_inList. intros by_ F. go F (gets_int 0 ltac:(lia)). cbn [Z.eqb REQUEST_TOKEN_TRANSFER orb]. go F (gets_some_bytes d). eexists. reflexivity. Qed.
Lemma gets_answer : forall d, gets readType (t_answer d) (2, Some d).
Proof. intros d. unfold readType, t_answer. apply gets_inList. intros by_ F. go F (gets_int 2 ltac:(lia)). change ((2 =? REQUEST_TOKEN_TRANSFER) || (2 =? RESPONSE_HANDLE_SERVICE)) with true. cbv iota. go F (gets_some_bytes d). eexists. reflexivity. Qed.
Lemma gets_unknown : gets readType t_unknown (3, None).
Proof. unfold readType, t_unknown. apply gets_inList. intros by_ F. go F (gets_int 3 ltac:(lia)). eexists. reflexivity. Qed.
Lemma gets_pend : forall d, gets readPending (t_request d) d.
Proof.
  intros d. unfold readPending, t_request. apply gets_inList. intros by_ F. inversion F as [|? ? b1 r1 F1 F2]; subst. inversion F2 as [|? ? b2 r2 F3 F4]; subst. inversion F4; subst. change (form (RBytes [0]) b1) in F1. inversion F1; subst.
  change (rlp_write (RBytes [0]) ++ b2 ++ []) with (0 :: b2 ++ []). cbn [skipOne]. change (0 <? 128) with true. cbv iota. rewrite (gets_bytes d b2 [] F3). eexists. reflexivity.
Qed.
Lemma gets_penderr : forall d, gets readPendingErr (t_request d) (Some d).
Proof. intros d. unfold readPendingErr, t_request. apply gets_inList. intros by_ F. go F (gets_int 0 ltac:(lia)). change (0 =? REQUEST_TOKEN_TRANSFER) with true. cbv iota. go F (gets_bytes d). eexists. reflexivity. Qed.

(** It reads all bytes of these trees, whatever follows them: what was written and what another writer of the format wrote. *)
Theorem C92_reads :
  (forall m b rest, form (x_move m) b -> readXMove (b ++ rest) = Some (m, rest))
  /\ (forall x b rest, form (x_bal x) b -> readBal (b ++ rest) = Some (x, rest))
  /\ (forall x b rest, form (x_tok x) b -> readTok (b ++ rest) = Some (x, rest))
  /\ (forall p n c b rest, In 46 n -> form (t_address p n c) b -> readAddr (b ++ rest) = Some ((p, n, c), rest))
  /\ (forall d b rest, form (t_request d) b -> readType (b ++ rest) = Some ((0, Some d), rest))
  /\ (forall d b rest, form (t_answer d) b -> readType (b ++ rest) = Some ((2, Some d), rest))
  /\ (forall c t b rest, - 2 ^ 31 <= c < 2 ^ 31 -> form (t_code c t) b -> readAnswer (b ++ rest) = Some ((c, t), rest)).
Proof.
  repeat split.
  - intros m b rest F. apply (gets_xmove m b rest F).
  - intros x b rest F. apply (gets_bal x b rest F).
  - intros x b rest F. apply (gets_tok x b rest F).
  - intros p n c b rest D F. apply gets_addr; [|exact F]. clear F. induction n as [|x n IH]; [destruct D|]. cbn [last_index]. destruct (last_index DOT_ n) eqn:E; [discriminate|]. destruct D as [->|D]; [cbn; destruct n; discriminate|destruct (IH D eq_refl)].
  - intros d b rest F. apply (gets_request d b rest F).
  - intros d b rest F. apply (gets_answer d b rest F).
  - intros c t b rest R F. apply (gets_code c t R b rest F).
Qed.
Print Assumptions C92_reads.

Lemma asset_rlp : forall a, asset_ok a -> rlp_ok (x_asset a).
Proof. intros a H. apply rlp_ok_list. repeat constructor; try apply int_ok. exact H. Qed.
Lemma move_rlp : forall m, move_ok m -> rlp_ok (x_move m).
Proof.
  intros [f t l] (H1 & H2 & H3). cbn [xm_from xm_to xm_assets] in *. apply rlp_ok_list. constructor; [exact H1|]. constructor; [exact H2|]. constructor; [|constructor]. apply rlp_ok_list. apply Forall_forall. intros x HX. apply in_map_iff in HX as (a & <- & HA). cbn [xm_assets] in HA. rewrite Forall_forall in H3. apply asset_rlp, H3, HA.
Qed.
Lemma inner_len : forall z d, zlen (rlp_write (RList [int_item z; RBytes d])) < 2 ^ 32 -> zlen d < 2 ^ 32.
Proof.
  intros z d L. cbn [rlp_write map concat] in L. rewrite app_nil_r in L. pose proof (writeList_len (rlp_write (int_item z) ++ writeBytes (Some d))) as WL. rewrite zlen_app in WL. pose proof (writeBytes_len d). pose proof (zlen_nonneg _ (rlp_write (int_item z))). cbn [rlp_write] in *. lia.
Qed.
Lemma outer_ok : forall z d, rlp_ok d -> zlen (rlp_write d) < 2 ^ 32 -> rlp_ok (RList [int_item z; RBytes (rlp_write d)]).
Proof. intros z d O L. apply rlp_ok_list. constructor; [apply int_ok|]. constructor; [|constructor]. apply rlp_write_ok; [exact O|lia]. Qed.

(** What is stored is read as stored: balances, tokens, and a transfer under way, both when it is answered and when an error is reported. *)
Theorem C92_stored :
  (forall b, zlen (rlp_write (wBal b)) < 2 ^ 32 -> fromBytes readBal (rlp_write (wBal b)) = Some b)
  /\ (forall t, tok_ok t -> zlen (rlp_write (wTok t)) < 2 ^ 32 -> fromBytes readTok (rlp_write (wTok t)) = Some t)
  /\ (forall m, move_ok m -> zlen (rlp_write (wXMove m)) < 2 ^ 32 -> fromBytes readXMove (rlp_write (wXMove m)) = Some m)
  /\ (forall m, move_ok m -> zlen (request_bytes m) < 2 ^ 32 -> pending_answered (request_bytes m) = Some m /\ pending_failed (request_bytes m) = Some (Some m)).
Proof.
  split; [|split; [|split]].
  - intros b L. change (wBal b) with (x_bal b) in *. apply fb_gets; [apply gets_bal| |exact L]. apply rlp_ok_list. repeat constructor; apply int_ok.
  - intros t [H1 H2] L. change (wTok t) with (x_tok t) in *. apply fb_gets; [apply gets_tok| |exact L]. apply rlp_ok_list. constructor; [exact H1|]. constructor; [exact H2|]. repeat constructor; apply int_ok.
  - intros m H L. change (wXMove m) with (x_move m) in *. apply fb_gets; [apply gets_xmove|apply move_rlp, H|exact L].
  - intros m H L. change (request_bytes m) with (rlp_write (t_request (rlp_write (x_move m)))) in *. pose proof (inner_len _ _ L) as L1. pose proof (outer_ok 0 _ (move_rlp _ H) L1) as O.
    unfold pending_answered, pending_failed. rewrite (fb_gets _ readPending _ _ (gets_pend _) O L), (fb_gets _ readPendingErr _ _ (gets_penderr _) O L). cbn [tbind]. rewrite (fb_gets _ readXMove _ _ (gets_xmove m) (move_rlp _ H) L1). split; reflexivity.
Qed.
Print Assumptions C92_stored.

(** What one service sends another one reads: the receiver and the assets of a request in their order, the code of an answer. *)
Theorem C92_arrives : forall name_code acct m c t, move_ok m -> bytes_ok t -> - 2 ^ 31 <= c < 2 ^ 31 ->
  (zlen (request_bytes m) < 2 ^ 32 -> tbody_in name_code acct (request_bytes m) = Some (TRequest (acct (xm_to m)) (map (fun a => TAsset (name_code (xa_name a)) (xa_value a) (xa_fee a)) (xm_assets m))))
  /\ (zlen (answer_bytes c t) < 2 ^ 32 -> tbody_in name_code acct (answer_bytes c t) = Some (TAnswer c))
  /\ tbody_in name_code acct unknown_bytes = Some TUnknown.
Proof.
  intros nc acct m c t H HT R. split; [|split; [|reflexivity]]; intros L.
  - change (request_bytes m) with (rlp_write (t_request (rlp_write (x_move m)))) in *. pose proof (inner_len _ _ L) as L1. pose proof (outer_ok 0 _ (move_rlp _ H) L1) as O.
    unfold tbody_in. rewrite (fb_gets _ readType _ _ (gets_request _) O L). cbn [tbind fst snd]. change (0 =? REQUEST_TOKEN_TRANSFER) with true. cbv iota. rewrite (fb_gets _ readXMove _ _ (gets_xmove m) (move_rlp _ H) L1). reflexivity.
  - change (answer_bytes c t) with (rlp_write (t_answer (rlp_write (t_code c t)))) in *. pose proof (inner_len _ _ L) as L1. assert (OC : rlp_ok (t_code c t)) by (apply rlp_ok_list; constructor; [apply int_ok|constructor; [exact HT|constructor]]). pose proof (outer_ok 2 _ OC L1) as O.
    unfold tbody_in. rewrite (fb_gets _ readType _ _ (gets_answer _) O L). cbn [tbind fst snd]. change (2 =? REQUEST_TOKEN_TRANSFER) with false. change (2 =? RESPONSE_HANDLE_SERVICE) with true. cbv iota. rewrite (fb_gets _ readAnswer _ _ (gets_code c t R) OC L1). reflexivity.
Qed.
Print Assumptions C92_arrives.

Lemma starts_app : forall p s, starts_with p (p ++ s) = true.
Proof. induction p as [|x p IH]; intros s; [destruct s; reflexivity|]. cbn [app starts_with]. rewrite Z.eqb_refl, IH. reflexivity. Qed.
Lemma starts_split : forall p s, starts_with p s = true -> exists r, s = p ++ r.
Proof. induction p as [|x p IH]; intros [|y s] H; cbn [starts_with] in H; try discriminate; [exists []; reflexivity|eexists; reflexivity|]. apply andb_prop in H as [H1 H2]. apply Z.eqb_eq in H1 as ->. destruct (IH _ H2) as [r ->]. exists r. reflexivity. Qed.
Lemma last_split : forall p s i, last_index p s = Some i -> exists a r, s = a ++ p ++ r /\ length a = i.
Proof.
  intros p s. induction s as [|x s IH]; intros i H; cbn [last_index] in H.
  - destruct (starts_with p []) eqn:E; [|discriminate]. injection H as <-. destruct (starts_split _ _ E) as [r R]. exists [], r. split; [exact R|reflexivity].
  - destruct (last_index p s) as [k|] eqn:E.
    + injection H as <-. destruct (IH k eq_refl) as (a & r & -> & <-). exists (x :: a), r. split; reflexivity.
    + destruct (starts_with p (x :: s)) eqn:E2; [|discriminate]. injection H as <-. destruct (starts_split _ _ E2) as [r R]. exists [], r. split; [exact R|reflexivity].
Qed.
Lemma last_none : forall p s, last_index p s = None <-> forall a r, s <> a ++ p ++ r.
Proof.
  intros p s. split.
  - induction s as [|x s IH]; intros H a r E; cbn [last_index] in H.
    + destruct (starts_with p []) eqn:X; [discriminate|]. destruct a; [|discriminate]. cbn [app] in E. rewrite E, starts_app in X. discriminate.
    + destruct (last_index p s) eqn:E1; [discriminate|]. destruct (starts_with p (x :: s)) eqn:E2; [discriminate|]. destruct a as [|y a]; [cbn [app] in E; rewrite E, starts_app in E2; discriminate|]. injection E as _ E. exact (IH eq_refl _ _ E).
  - intros H. destruct (last_index p s) as [i|] eqn:E; [|reflexivity]. apply last_split in E as (a & r & -> & _). exfalso. apply (H a r eq_refl).
Qed.
Lemma last_here : forall p a s, p <> [] -> last_index p (tl s) = None -> starts_with p s = true -> last_index p (a ++ s) = Some (length a).
Proof.
  intros p a s NP H S. induction a as [|x a IH]; cbn [app last_index length].
  - destruct s as [|x s]; [destruct p; [congruence|discriminate]|]. cbn [last_index tl] in *. rewrite H, S. reflexivity.
  - rewrite IH. reflexivity.
Qed.
Lemma last_later : forall p a s i, last_index p s = Some i -> last_index p (a ++ s) = Some (length a + i)%nat.
Proof. intros p a s i H. induction a as [|x a IH]; [exact H|]. cbn [app last_index length]. rewrite IH. reflexivity. Qed.
Lemma no_char : forall c s, ~ In c s -> last_index [c] s = None.
Proof. intros c s H. apply last_none. intros a r ->. apply H, in_or_app. right. left. reflexivity. Qed.
Lemma tail_app : forall A (a b c d : list A) x, a ++ x :: b = c ++ d -> ~ In x d -> exists c1 c2, c = a ++ x :: c2 /\ b = c2 ++ d /\ c1 = a.
Proof.
  intros A a b c d x. revert c. induction a as [|y a IH]; intros c E N.
  - destruct c as [|z c]; cbn [app] in E; [exfalso; apply N; rewrite <- E; left; reflexivity|]. injection E as -> E. exists [], c. repeat split. exact E.
  - destruct c as [|z c]; cbn [app] in E; [exfalso; apply N; rewrite <- E; right; apply in_or_app; right; left; reflexivity|]. injection E as -> E. destruct (IH c E N) as (c1 & c2 & -> & -> & ->). exists (z :: a), c2. repeat split; reflexivity.
Qed.
Lemma no_sep : forall n c, ~ In 47 n -> ~ In 47 c -> last_index SEP_ (47 :: 47 :: n ++ 47 :: c) = None.
Proof.
  intros n c N C. apply last_none. intros a r E.
  destruct a as [|x1 a]; [discriminate|]. destruct a as [|x2 a]; [discriminate|]. injection E as _ _ E.
  revert n N E. induction a as [|x3 a IH]; intros n N E.
  - destruct n as [|n1 n]; [discriminate|]. injection E as -> E. destruct n as [|n2 n]; [|injection E as -> _; apply N; right; left; reflexivity]. injection E as E. apply C. rewrite E. left. reflexivity.
  - destruct n as [|n1 n].
    + injection E as <- E. apply C. rewrite E. apply in_or_app. right. right. left. reflexivity.
    + injection E as _ E. apply (IH n); [|exact E]. intros H. apply N. right. exact H.
Qed.
Lemma dot_in : forall n, In 46 n -> exists i, last_index DOT_ n = Some i.
Proof. intros n H. destruct (last_index DOT_ n) eqn:E; [eexists; reflexivity|]. exfalso. apply in_split in H as (a & r & ->). exact (proj1 (last_none _ _) E a r eq_refl). Qed.

(** A BTP address gives its protocol, network and contract back if the network has a "." and neither it nor the contract a "/"; what is read off
    an address puts it together again. *)
Theorem C92_address :
  (forall p n c, In 46 n -> ~ In 47 n -> ~ In 47 c -> addr_fromString (t_uri p n c) = Some (p, n, c))
  /\ (forall a p n c, addr_fromString a = Some (p, n, c) -> a = t_uri p n c /\ In 46 n /\ ~ In 47 c).
Proof.
  split.
  - intros p n c D N C. unfold addr_fromString, t_uri. set (a := p ++ [58; 47; 47] ++ n ++ [47] ++ c).
    assert (LI : last_index SEP_ a = Some (length p)). { apply last_here; [discriminate| |reflexivity]. apply (no_sep n c N C). }
    assert (LJ : last_index SLASH_ a = Some (length p + 3 + length n)%nat).
    { unfold a. replace (p ++ [58; 47; 47] ++ n ++ [47] ++ c) with ((p ++ [58; 47; 47] ++ n) ++ 47 :: c) by (rewrite <- !app_assoc; reflexivity). rewrite (last_here SLASH_); [f_equal; rewrite !app_length; cbn [length]; lia|discriminate| |reflexivity]. cbn [tl]. apply no_char, C. }
    assert (LA : length a = (length p + 3 + length n + 1 + length c)%nat) by (unfold a; rewrite !app_length; cbn [length]; lia).
    assert (SP : substring a 0 (length p) = Some p). { unfold substring. replace (_ && _) with true by lia. cbn [skipn]. rewrite Nat.sub_0_r. unfold a. rewrite firstn_app, firstn_all, Nat.sub_diag. cbn [firstn]. rewrite app_nil_r. reflexivity. }
    assert (SN : substring a (length p + 3) (length p + 3 + length n) = Some n).
    { unfold substring. replace (_ && _) with true by lia. replace (length p + 3 + length n - (length p + 3))%nat with (length n) by lia. unfold a. replace (length p + 3)%nat with (length (p ++ [58; 47; 47])) by (rewrite app_length; reflexivity).
      rewrite (app_assoc p), skipn_app, skipn_all, Nat.sub_diag. cbn [app skipn]. rewrite firstn_app, firstn_all, Nat.sub_diag. cbn [firstn]. rewrite app_nil_r. reflexivity. }
    rewrite LI. cbn [tbind]. rewrite SP. cbn [tbind]. rewrite LJ. cbn [tbind]. rewrite SN. cbn [tbind]. cbv zeta. destruct (dot_in n D) as [i DI].
    assert (SC : (if (length p + length n + 4 <? length a)%nat then substring a (length p + length n + 4) (length a) else Some []) = Some c).
    { destruct (Nat.ltb_spec (length p + length n + 4) (length a)) as [L|L]; [|destruct c; [reflexivity|cbn [length] in LA; lia]]. unfold substring. replace (_ && _) with true by lia. rewrite firstn_all2 by (rewrite skipn_length; lia). f_equal. unfold a.
      replace (p ++ [58; 47; 47] ++ n ++ [47] ++ c) with ((p ++ [58; 47; 47] ++ n ++ [47]) ++ c) by (rewrite <- !app_assoc; reflexivity). replace (length p + length n + 4)%nat with (length (p ++ [58; 47; 47] ++ n ++ [47])) by (rewrite !app_length; cbn [length]; lia). rewrite skipn_app, skipn_all, Nat.sub_diag. reflexivity. }
    rewrite SC. cbn [tbind]. unfold new_address. rewrite DI. reflexivity.
  - intros a p n c H. unfold addr_fromString in H. destruct (last_index SEP_ a) as [i|] eqn:LI; [|discriminate]. cbn [tbind] in H. apply last_split in LI as (p1 & r & EA & LP). unfold substring at 1 in H.
    assert (FP : firstn i a = p1). { rewrite EA, <- LP, firstn_app, firstn_all, Nat.sub_diag. cbn [firstn]. apply app_nil_r. }
    assert (LA : length a = (i + 3 + length r)%nat) by (rewrite EA, !app_length, LP; cbn [length SEP_]; lia).
    replace ((0 <=? i)%nat && (i <=? length a)%nat) with true in H by lia. cbn [tbind skipn] in H. rewrite Nat.sub_0_r, FP, LP in H.
    destruct (last_index SLASH_ a) as [j|] eqn:LJ; [|discriminate]. cbn [tbind] in H. pose proof LJ as LJ0. apply last_split in LJ as (a1 & a2 & EJ & LJ). unfold substring at 1 in H.
    destruct (((i + 3 <=? j)%nat && (j <=? length a)%nat)) eqn:B; [|discriminate]. cbn [tbind] in H. apply andb_prop in B as [B1 B2]. apply Nat.leb_le in B1. apply Nat.leb_le in B2.
    assert (A1 : a1 = p1 ++ SEP_ ++ firstn (j - (i + 3)) (skipn (i + 3) a)).
    { transitivity (firstn j a). { rewrite EJ, <- LJ, firstn_app, firstn_all, Nat.sub_diag. cbn [firstn]. symmetry. apply app_nil_r. }
      rewrite <- (firstn_skipn (i + 3) (firstn j a)). rewrite firstn_firstn, Nat.min_l by lia. rewrite skipn_firstn_comm. rewrite (app_assoc p1). f_equal. rewrite EA, (app_assoc p1). replace (i + 3)%nat with (length (p1 ++ SEP_)) by (rewrite app_length, LP; reflexivity). rewrite firstn_app, firstn_all, Nat.sub_diag. cbn [firstn]. apply app_nil_r. }
    set (n1 := firstn (j - (i + 3)) (skipn (i + 3) a)) in *. assert (LN : length n1 = (j - (i + 3))%nat) by (unfold n1; rewrite firstn_length, skipn_length; lia).
    assert (LJA : length a = (j + 1 + length a2)%nat) by (rewrite EJ, !app_length, LJ; cbn [length SLASH_]; lia).
    assert (C2 : (if (i + length n1 + 4 <? length a)%nat then substring a (i + length n1 + 4) (length a) else Some []) = Some a2).
    { destruct (Nat.ltb_spec (i + length n1 + 4) (length a)) as [L|L].
      - unfold substring. replace (_ && _) with true by lia. rewrite firstn_all2 by (rewrite skipn_length; lia). f_equal. rewrite EJ, app_assoc. replace (i + length n1 + 4)%nat with (length (a1 ++ SLASH_)) by (rewrite app_length, LJ; cbn [length SLASH_]; lia). rewrite skipn_app, skipn_all, Nat.sub_diag. reflexivity.
      - destruct a2; [reflexivity|]. cbn [length] in LJA. lia. }
    cbv zeta in H. rewrite C2 in H. cbn [tbind] in H. unfold new_address in H. destruct (last_index DOT_ n1) as [k|] eqn:DI; [|discriminate]. injection H as <- <- <-. split; [|split].
    + unfold t_uri. rewrite EJ, A1. rewrite <- !app_assoc. reflexivity.
    + apply last_split in DI as (x & y & -> & _). apply in_or_app. right. left. reflexivity.
    + intros HI. apply in_split in HI as (x & y & E). assert (X : exists i', last_index SLASH_ a2 = Some i'). { destruct (last_index SLASH_ a2) eqn:Q; [eexists; reflexivity|]. exfalso. exact (proj1 (last_none _ _) Q x y E). }
      destruct X as [i' X]. pose proof (last_later SLASH_ (a1 ++ SLASH_) a2 i' X) as Y. rewrite <- app_assoc, <- EJ, LJ0 in Y. injection Y as Y. rewrite app_length, LJ in Y. cbn [length SLASH_] in Y. lia.
Qed.
Print Assumptions C92_address.

(** 100 of "A" with the fee 1 from "x" to "y"; btp://1.i/cx *)
Definition xn_code (t : text) : Z := match t with [c] => c | _ => 0 end.
Definition xn_acct (t : text) : option Z := match t with [c] => Some c | _ => None end.
Definition xn_move : xmove := XMove [120] [121] [XAsset [65] 100 1].
Example C92_ex : request_bytes xn_move = [202; 0; 136; 199; 120; 121; 196; 195; 65; 100; 1]
  /\ tbody_in xn_code xn_acct (request_bytes xn_move) = Some (TRequest (Some 121) [TAsset 65 100 1]) /\ pending_answered (request_bytes xn_move) = Some xn_move
  /\ move_ok xn_move /\ addr_fromString [98; 58; 47; 47; 49; 46; 105; 47; 99; 120] = Some ([98], [49; 46; 105], [99; 120]).
Proof. repeat split; try (vm_compute; reflexivity); repeat constructor; lia. Qed.

(** Not so: everything that looks like an address is read, or refused, as elsewhere.  A network without a "." is refused with no word, a contract with a "/" becomes
    part of the network. *)
Theorem C92_address_refuted : (forall p n c, ~ In 46 n -> ~ In 47 n -> ~ In 47 c -> addr_fromString (t_uri p n c) = None)
  /\ addr_fromString (t_uri [98] [49; 46; 105] [99; 47; 120]) = Some ([98], [49; 46; 105; 47; 99], [120]).
Proof.
  split; [|vm_compute; reflexivity]. intros p n c D N C. destruct (addr_fromString (t_uri p n c)) as [[[p2 n2] c2]|] eqn:E; [|reflexivity]. exfalso.
  destruct C92_address as [_ A]. destruct (A _ _ _ _ E) as (EQ & HD & HC). 
  assert (S1 : last_index SEP_ (t_uri p n c) = Some (length p)) by (apply last_here; [discriminate|apply (no_sep n c N C)|reflexivity]).
  assert (S2 : last_index SLASH_ (t_uri p n c) = Some (length p + 3 + length n)%nat).
  { unfold t_uri. replace (p ++ [58; 47; 47] ++ n ++ [47] ++ c) with ((p ++ [58; 47; 47] ++ n) ++ 47 :: c) by (rewrite <- !app_assoc; reflexivity). rewrite (last_here SLASH_); [f_equal; rewrite !app_length; cbn [length]; lia|discriminate| |reflexivity]. cbn [tl]. apply no_char, C. }
  assert (LP : length p2 = length p).
  { unfold addr_fromString in E. rewrite S1 in E. cbn [tbind] in E. destruct (substring (t_uri p n c) 0 (length p)) as [q|] eqn:Q; [|discriminate]. cbn [tbind] in E. rewrite S2 in E. cbn [tbind] in E. destruct (substring _ (length q + 3) _); [|discriminate]. cbn [tbind] in E. cbv zeta in E. destruct (if (_ <? _)%nat then _ else _); [|discriminate]. cbn [tbind] in E. unfold new_address in E. destruct (last_index DOT_ l); [|discriminate]. injection E as <- _ _.
    unfold substring in Q. destruct (_ && _) eqn:B; [|discriminate]. injection Q as <-. rewrite firstn_length. cbn [skipn]. lia. }
  assert (PP : p2 = p /\ [58; 47; 47] ++ n ++ [47] ++ c = [58; 47; 47] ++ n2 ++ [47] ++ c2).
  { unfold t_uri in EQ. pose proof (f_equal (firstn (length p)) EQ) as Q1. pose proof (f_equal (skipn (length p)) EQ) as Q2. rewrite <- LP in Q1 at 2. rewrite <- LP in Q2 at 2. rewrite !firstn_app, !firstn_all, !Nat.sub_diag in Q1. rewrite !skipn_app, !skipn_all, !Nat.sub_diag in Q2. cbn [firstn skipn app] in Q1, Q2. rewrite !app_nil_r in Q1. split; [congruence|exact Q2]. }
  destruct PP as [-> PP]. injection PP as PP. assert (NN : n2 = n).
  { destruct (tail_app _ n c (n2 ++ [47]) c2 47) as (x & c3 & E1 & E2 & _); [rewrite <- app_assoc; exact PP|exact HC|]. destruct c3 as [|z c3] using rev_ind; [apply app_inj_tail in E1 as [-> _]; reflexivity|]. clear IHc3. exfalso. apply C. rewrite app_comm_cons, app_assoc in E1. apply app_inj_tail in E1 as [_ <-]. rewrite E2. apply in_or_app. left. apply in_or_app. right. left. reflexivity. }
  subst n2. contradiction.
Qed.
Print Assumptions C92_address_refuted.
