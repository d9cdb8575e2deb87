(** Theorems about log filtering (C45) and connection options (C46). *)
From Coq Require Import String Ascii ZArith List Bool Lia Permutation.
From Coq Require Import ZifyBool.
From Verif Require Import Base L_Base GoStr S_Address L_Address M_Misc S_Misc.
Import ListNotations.
Open Scope Z_scope.

(** * C45 *)
(** The level in force after any history of settings. *)
Theorem C45_settings : forall d file h m r dd, last_mod m h r -> last_def d h dd ->
  let f := fold_left apply_setting h (mkFilter d [] file) in
  GetModuleLevel f m = match r with Some l => l | None => dd end /\ f_default f = dd /\ f_file f = file.
Proof.
  intros d file h m r dd HM HD. cbn zeta.
  assert (F : forall h, f_file (fold_left apply_setting h (mkFilter d [] file)) = file).
  { clear. intros h. induction h as [|s h IH] using rev_ind; [reflexivity|]. rewrite fold_left_app. cbn [fold_left]. destruct s; cbn [apply_setting SetModuleLevel SetDefaultLevel f_file]; exact IH. }
  assert (D : f_default (fold_left apply_setting h (mkFilter d [] file)) = dd).
  { clear HM. induction HD as [|h l|h m' l r' HD IH]; [reflexivity| |]; rewrite fold_left_app; cbn [fold_left apply_setting SetModuleLevel SetDefaultLevel f_default]; auto. }
  assert (M : lookup (f_modules (fold_left apply_setting h (mkFilter d [] file))) m = r).
  { clear HD D. induction HM as [|h l|h m' l r' HN HM IH|h l r' HM IH]; [reflexivity| | |]; rewrite fold_left_app; cbn [fold_left apply_setting SetModuleLevel SetDefaultLevel f_modules lookup].
    - rewrite bytes_eqb_refl. reflexivity.
    - destruct (bytes_eqb m' m) eqn:E; [apply bytes_eqb_eq in E; congruence|exact IH].
    - exact IH. }
  split; [|split; [exact D|apply F]]. unfold GetModuleLevel. rewrite M, D. reflexivity.
Qed.
Print Assumptions C45_settings.

(** A line reaches the console exactly when its level is at least as severe as the one in force for its module. *)
Theorem C45_console : forall fmt f e m, entry_module e = Ok m -> fmt e <> [] ->
  let level := match m with [] => f_default f | _ => GetModuleLevel f m end in
  exists console file, Format fmt f e = Ok (console, file) /\
    (e_level e <= level -> console = fmt e) /\ (level < e_level e -> console = []) /\ (file = if f_file f then fmt e else []).
Proof.
  intros fmt f e m HM HF level. unfold Format. rewrite HM. cbn [rbind].
  assert (EL : (if 0 <? zlen m then match lookup (f_modules f) m with Some lv => lv | None => f_default f end else f_default f) = level).
  { unfold level, GetModuleLevel. destruct m; [reflexivity|]. replace (0 <? zlen (z :: m)) with true by (unfold zlen; cbn [length]; lia). reflexivity. }
  rewrite EL. assert (ZL : 0 <? zlen (fmt e) = true) by (destruct (fmt e); [congruence|unfold zlen; cbn [length]; lia]). rewrite ZL.
  destruct (level <? e_level e) eqn:E, (f_file f); cbn [andb negb]; do 2 eexists; (split; [reflexivity|]); repeat split; intros; try reflexivity; lia.
Qed.
Print Assumptions C45_console.

(** Finding: the file receives every line that is formatted, whatever its level (the field filterLevel is never read). *)
Theorem C45_file_ignores_level_refuted : forall fmt f e m, entry_module e = Ok m -> f_file f = true -> exists console, Format fmt f e = Ok (console, fmt e).
Proof.
  intros fmt f e m HM HF. unfold Format. rewrite HM, HF. cbn [rbind andb negb]. rewrite andb_false_r. destruct (0 <? zlen (fmt e)) eqn:E.
  - destruct (_ <? e_level e); eauto.
  - assert (X : fmt e = []) by (destruct (fmt e); [reflexivity|unfold zlen in E; cbn [length] in E; lia]). rewrite X. destruct (_ <? e_level e); eauto.
Qed.
Print Assumptions C45_file_ignores_level_refuted.

(** Finding: a module field that is not a string crashes the logger. *)
Theorem C45_module_type_refuted : forall fmt f e, e_module e = FOther -> Format fmt f e = Panic.
Proof. intros fmt f e H. unfold Format, entry_module. rewrite H. reflexivity. Qed.
Print Assumptions C45_module_type_refuted.

(** Level names, in any case, are parsed to their level and nothing else is. *)
Lemma to_lower_spec : forall s t, Forall (fun c => 97 <= c <= 122) t -> (to_lower s = t <-> same_letters s t).
Proof.
  unfold to_lower, same_letters. induction s as [|c s IH]; intros t HT; cbn [map].
  - split; [intros <-; constructor|intros H; inversion H; reflexivity].
  - destruct t as [|d t]; [split; [discriminate|intros H; inversion H]|]. inversion HT; subst. split.
    + intros E. assert (E1 : (if (65 <=? c) && (c <=? 90) then c + 32 else c) = d) by congruence. assert (E2 : map (fun c => if (65 <=? c) && (c <=? 90) then c + 32 else c) s = t) by congruence. constructor; [|apply IH; assumption].
      destruct ((65 <=? c) && (c <=? 90)) eqn:EC; lia.
    + intros H. inversion H as [|? ? ? ? HC HR]; subst. apply IH in HR; [|assumption]. rewrite HR. f_equal. destruct ((65 <=? c) && (c <=? 90)) eqn:EC; lia.
Qed.
Lemma level_lower : forall l, 0 <= l <= 6 -> Forall (fun c => 97 <= c <= 122) (Level_String l).
Proof.
  intros l H. assert (X : l = 0 \/ l = 1 \/ l = 2 \/ l = 3 \/ l = 4 \/ l = 5 \/ l = 6) by lia.
  destruct X as [->|[->|[->|[->|[->|[->| ->]]]]]]; vm_compute; repeat (constructor; [split; discriminate|]); constructor.
Qed.
Theorem C45_parse_level : forall s l, ParseLevel s = (l, false) <-> 0 <= l <= 6 /\ same_letters s (Level_String l).
Proof.
  intros s l. split.
  - intros E. assert (X : 0 <= l <= 6 /\ to_lower s = Level_String l).
    { unfold ParseLevel in E. cbv zeta in E. repeat match type of E with (if bytes_eqb ?a ?b then _ else _) = _ => destruct (bytes_eqb a b) eqn:EQ; [apply bytes_eqb_eq in EQ; inversion E; subst l; split; [unfold PanicLevel, FatalLevel, ErrorLevel, WarnLevel, InfoLevel, DebugLevel, TraceLevel; lia|exact EQ]|clear EQ] end. discriminate E. }
    destruct X as [H1 H2]. split; [exact H1|]. apply to_lower_spec; [apply level_lower; exact H1|exact H2].
  - intros [H1 H2]. apply to_lower_spec in H2; [|apply level_lower; exact H1]. unfold ParseLevel. rewrite H2. assert (X : l = 0 \/ l = 1 \/ l = 2 \/ l = 3 \/ l = 4 \/ l = 5 \/ l = 6) by lia.
    destruct X as [->|[->|[->|[->|[->|[->| ->]]]]]]; reflexivity.
Qed.
Print Assumptions C45_parse_level.

(** A forwarder is hooked to exactly the levels at least as severe as its own. *)
Theorem C45_hook_levels : forall s l, ParseLevel s = (l, false) -> exists ls, HookLevels s = Ok ls /\ NoDup ls /\ forall x, In x ls <-> PanicLevel <= x <= l.
Proof.
  intros s l E. assert (H : 0 <= l <= 6) by (apply C45_parse_level in E; tauto). unfold HookLevels. rewrite E. eexists. split; [reflexivity|].
  assert (X : l = 0 \/ l = 1 \/ l = 2 \/ l = 3 \/ l = 4 \/ l = 5 \/ l = 6) by lia.
  destruct X as [->|[->|[->|[->|[->|[->| ->]]]]]]; unfold PanicLevel, FatalLevel, ErrorLevel, WarnLevel, InfoLevel, DebugLevel, TraceLevel; cbn [Z.leb Z.compare Pos.compare Pos.compare_cont app In];
  (split; [repeat (constructor; [cbn [In]; intuition lia|]); constructor|intros; lia]).
Qed.
Print Assumptions C45_hook_levels.

(** The module of a caller is the package in the function's full name. *)
Lemma last_index_app : forall a b c, ~ In c b -> last_index (a ++ c :: b) c = Some (length a).
Proof.
  intros a b c H. assert (N : forall b, ~ In c b -> last_index b c = None).
  { clear. induction b as [|x b IH]; intros H; [reflexivity|]. cbn [last_index In] in *. rewrite IH by tauto. destruct (x =? c) eqn:E; [lia|reflexivity]. }
  induction a as [|x a IH]; cbn [app last_index length]; [rewrite N by assumption; rewrite Z.eqb_refl; reflexivity|]. rewrite IH. reflexivity.
Qed.
Lemma str_index_one : forall p c r, ~ In c p -> str_index (p ++ c :: r) [c] = Some (length p).
Proof.
  induction p as [|x p IH]; intros c r H; cbn [app str_index has_prefix length]; [rewrite Z.eqb_refl; reflexivity|]. cbn [In] in H. replace (c =? x) with false by lia. cbn [andb]. rewrite IH by tauto. reflexivity.
Qed.
Theorem C45_package : forall dir pkg rest, pkg <> [] -> free_of (ch "/") pkg -> free_of (ch ".") pkg -> free_of (ch "/") rest ->
  getPackageName (dir ++ str "/" ++ pkg ++ str "." ++ rest) = pkg.
Proof.
  intros dir pkg rest HN HS HD HR. unfold getPackageName. change (str "/" ++ pkg ++ str "." ++ rest) with (ch "/" :: pkg ++ ch "." :: rest).
  assert (NS : ~ In (ch "/") (pkg ++ ch "." :: rest)) by (intros X; apply in_app_or in X; destruct X as [X|[X|X]]; [exact (HS X)|discriminate X|exact (HR X)]).
  rewrite last_index_app by exact NS. replace (skipn (S (length dir)) (dir ++ ch "/" :: pkg ++ ch "." :: rest)) with (pkg ++ ch "." :: rest) by (rewrite skipn_app, skipn_all2 by lia; replace (S (length dir) - length dir)%nat with 1%nat by lia; reflexivity).
  change (str ".") with [ch "."]. rewrite str_index_one by exact HD. destruct pkg as [|c pkg]; [congruence|]. cbn [length]. change (S (length pkg)) with (length (c :: pkg)). rewrite firstn_app, Nat.sub_diag, firstn_O, app_nil_r. apply firstn_all.
Qed.
Print Assumptions C45_package.

Example C45_ex : let f := fold_left apply_setting [SetMod (str "rpc") TraceLevel; SetDef WarnLevel] (mkFilter InfoLevel [] false) in
  Format (fun _ => [1]) f (mkEntry DebugLevel FAbsent (Some (str "github.com/x/rpc.(*S).Do"))) = Ok ([1], []) /\ Format (fun _ => [1]) f (mkEntry DebugLevel (FStr (str "db")) None) = Ok ([], []) /\
  HookLevels (str "Error") = Ok [2; 1; 0] /\ ParseLevel (str "warning") = (DebugLevel, true).
Proof. vm_compute. auto. Qed.

(** * C46 *)
Lemma opt_set_new : forall m k v, ~ In k (map fst m) -> opt_set m k v = m ++ [(k, v)].
Proof.
  induction m as [|[a b] m IH]; intros k v H; cbn [opt_set app]; [reflexivity|]. cbn [map fst In] in H. destruct (bytes_eqb a k) eqn:E; [apply bytes_eqb_eq in E; tauto|]. rewrite IH by tauto. reflexivity.
Qed.
Lemma join_split : forall l c, l <> [] -> Forall (free_of c) l -> str_split (join [c] l) c = l.
Proof.
  induction l as [|x l IH]; intros c HN HF; [congruence|]. inversion HF; subst. destruct l as [|y l]; cbn [join]; [apply str_split_free; assumption|]. cbn [app]. rewrite str_split_sep by assumption. f_equal. apply IH; [discriminate|assumption].
Qed.
Definition clean (kv : list Z * list Z) : Prop := fst kv <> [] /\ free_of (ch "=") (fst kv) /\ free_of (ch ",") (fst kv) /\ free_of (ch ",") (snd kv).

(** Options with distinct clean keys come back exactly, in whatever order the map was ranged over. *)
Theorem C46_roundtrip : forall opts order, NoDup (map fst opts) -> Forall clean opts -> opts <> [] -> Permutation order opts ->
  exists m, NewIconOptionsByHeader (ToHeaderValue order) = Some m /\ Permutation m opts /\ (forall k v, In (k, v) opts -> opt_Get (Some m) k = v) /\ (forall k, ~ In k (map fst opts) -> opt_Get (Some m) k = []).
Proof.
  intros opts order HD HC HN HP. assert (HD' : NoDup (map fst order)) by (apply (Permutation_NoDup (l := map fst opts)); [apply Permutation_map, Permutation_sym; exact HP|exact HD]).
  assert (HC' : Forall clean order) by (rewrite Forall_forall in *; intros x Hx; apply HC; apply (Permutation_in _ HP); exact Hx). assert (HN' : order <> []) by (intros ->; apply Permutation_nil in HP; congruence).
  exists order. split; [|split; [exact HP|]].
  - unfold NewIconOptionsByHeader, ToHeaderValue. change (str ",") with [ch ","]. set (enc := fun kv : list Z * list Z => fst kv ++ str "=" ++ snd kv).
    assert (NE : join [ch ","] (map enc order) <> []).
    { destruct order as [|[k v] order]; [congruence|]. inversion HC'; subst. destruct H1 as (K & _). cbn [fst] in K. cbn [map]. destruct (map enc order); cbn [join]; unfold enc; cbn [fst snd]; (destruct k; [congruence|]); cbn [app]; discriminate. }
    destruct (join [ch ","] (map enc order)) as [|z zs] eqn:EJ; [congruence|]. rewrite <- EJ. f_equal. rewrite join_split.
    + clear EJ NE HN' HP. assert (G : forall l acc, Forall clean l -> NoDup (map fst (acc ++ l)) -> fold_left (fun m kv => match kv with [] => m | _ => match str_index kv (str "=") with Some (S n) => opt_set m (firstn (S n) kv) (skipn (S (S n)) kv) | _ => opt_set m kv [] end end) (map enc l) acc = acc ++ l).
      { induction l as [|[k v] l IH]; intros acc HL HA; cbn [map fold_left]; [rewrite app_nil_r; reflexivity|]. inversion HL; subst. destruct H1 as (K1 & K2 & K3 & K4). cbn [fst snd] in *.
        assert (ST : match enc (k, v) with [] => acc | _ => match str_index (enc (k, v)) (str "=") with Some (S n) => opt_set acc (firstn (S n) (enc (k, v))) (skipn (S (S n)) (enc (k, v))) | _ => opt_set acc (enc (k, v)) [] end end = acc ++ [(k, v)]).
        { unfold enc. cbn [fst snd]. change (str "=" ++ v) with (ch "=" :: v). change (str "=") with [ch "="]. rewrite str_index_one by exact K2. destruct k as [|c k]; [congruence|]. cbn [length]. change (S (length k)) with (length (c :: k)).
          assert (F1 : firstn (length (c :: k)) ((c :: k) ++ ch "=" :: v) = c :: k) by (rewrite firstn_app, Nat.sub_diag, firstn_O, app_nil_r; apply firstn_all).
          assert (F2 : skipn (S (length (c :: k))) ((c :: k) ++ ch "=" :: v) = v) by (rewrite skipn_app, skipn_all2 by lia; replace (S (length (c :: k)) - length (c :: k))%nat with 1%nat by lia; reflexivity).
          rewrite F1, F2. cbn [app]. apply opt_set_new. rewrite map_app in HA. cbn [map fst] in HA. apply NoDup_remove_2 in HA. intros X. apply HA. apply in_or_app. left. exact X. }
        rewrite ST. rewrite IH; [rewrite <- app_assoc; reflexivity|assumption|rewrite <- app_assoc; exact HA]. }
      rewrite (G order []); [reflexivity|exact HC'|exact HD'].
    + destruct order; [congruence|discriminate].
    + apply Forall_forall. intros x Hx. apply in_map_iff in Hx. destruct Hx as ([k v] & <- & Hx). rewrite Forall_forall in HC'. destruct (HC' _ Hx) as (K1 & K2 & K3 & K4). unfold enc, free_of in *. cbn [fst snd] in *. intros X. apply in_app_or in X. destruct X as [X|X]; [exact (K3 X)|]. apply in_app_or in X. destruct X as [[X|[]]|X]; [discriminate X|exact (K4 X)].
  - assert (GET : forall l k v, NoDup (map fst l) -> In (k, v) l -> opt_Get (Some l) k = v).
    { clear. unfold opt_Get. induction l as [|[a b] l IH]; intros k v HD HI; [destruct HI|]. cbn [map fst] in HD. inversion HD; subst. cbn [find fst]. destruct HI as [HI|HI].
      - assert (a = k) by congruence. assert (b = v) by congruence. subst. rewrite bytes_eqb_refl. reflexivity.
      - destruct (bytes_eqb a k) eqn:E; [apply bytes_eqb_eq in E; subst; exfalso; apply H1; apply (in_map fst) in HI; exact HI|]. apply IH; assumption. }
    split; [intros k v HI; apply GET; [exact HD'|apply (Permutation_in _ (Permutation_sym HP)); exact HI]|].
    intros k HI. unfold opt_Get. destruct (find (fun kv => bytes_eqb (fst kv) k) order) as [kv|] eqn:EF; [|reflexivity]. apply find_some in EF. destruct EF as [E1 E2]. apply bytes_eqb_eq in E2. subst k. exfalso. apply HI. apply in_map. apply (Permutation_in _ HP). exact E1.
Qed.
Print Assumptions C46_roundtrip.

(** No options: the header is empty and reads back as a nil map, which answers the same. *)
Theorem C46_empty : NewIconOptionsByHeader (ToHeaderValue []) = None /\ forall k, opt_Get None k = opt_Get (Some []) k.
Proof. split; reflexivity. Qed.
Print Assumptions C46_empty.

(** Findings: a value with a comma brings in further options; an empty key is read back as another key. *)
Theorem C46_comma_refuted : forall k v k' v' r, ToHeaderValue ((k, v ++ str "," ++ k' ++ str "=" ++ v') :: r) = ToHeaderValue ((k, v) :: (k', v') :: r).
Proof.
  intros k v k' v' r. unfold ToHeaderValue. cbn [map fst snd]. destruct (map (fun kv => fst kv ++ str "=" ++ snd kv) r) as [|x l]; cbn [join]; rewrite <- ?app_assoc; reflexivity.
Qed.
Print Assumptions C46_comma_refuted.
Theorem C46_empty_key_refuted : forall v, free_of (ch ",") v -> NewIconOptionsByHeader (ToHeaderValue [([], v)]) = Some [(str "=" ++ v, [])].
Proof.
  intros v HV. unfold ToHeaderValue. cbn [map fst snd join app]. unfold NewIconOptionsByHeader. change (str "=" ++ v) with (ch "=" :: v). rewrite str_split_free.
  - cbn [fold_left]. change (str "=") with [ch "="]. cbn [str_index has_prefix]. rewrite Z.eqb_refl. reflexivity.
  - intros [X|X]; [discriminate X|exact (HV X)].
Qed.
Print Assumptions C46_empty_key_refuted.

Example C46_ex : NewIconOptionsByHeader (ToHeaderValue [(str "debug", str "true"); (str "timeout", str "a=b")]) = Some [(str "debug", str "true"); (str "timeout", str "a=b")].
Proof. vm_compute. reflexivity. Qed.
