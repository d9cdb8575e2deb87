(** C100: the dictionaries and properties that the Python contracts keep in their store. *)
From Coq Require Import String Ascii ZArith List Bool Lia.
From Coq Require Import ZifyBool.
From Verif Require Import Base L_Base M_IntConv S_IntConv L_IntConv M_PyRlp S_PyRlp L_PyRlp M_PyDb S_PyDb L_PyDb.
Import ListNotations.
Open Scope Z_scope.

(** ** Dictionaries *)
Section DICT.
Context {A V : Type} (o2r : A -> V) (r2o : V -> option A) (nested : bool) (make : key -> V).
(** A value that is read as it was put in; nested values are objects named by their key *)
Definition reads_back (k : key) (a : A) : Prop := r2o (if nested then make k else o2r a) = Some a.

(** Whatever is done over any number of calls, what is read is what the marked dictionary has. *)
Theorem C100_dict_as_marked : forall os, Forall (good_op reads_back) os -> kept_run no_marks os ->
  run o2r r2o nested make empty_st os = Some (mark_run no_marks os).
Proof. intros os F K. exact (run_ok o2r r2o nested make os empty_st no_marks (rel_empty o2r r2o nested make) F K). Qed.

Lemma mark_is_dict : forall os (m : marked A), no_fresh_removed m os -> mark_run m os = dict_run (m_e m) os.
Proof.
  induction os as [|o os IH]; intros m N; [reflexivity|]. destruct N as [N1 N2]. cbn [mark_run dict_run].
  assert (E : fst (mark_step m o) = fst (dict_step (m_e m) o) /\ m_e (snd (mark_step m o)) = snd (dict_step (m_e m) o)).
  { destruct o as [k a|k|k|k| |]; cbn [mark_step dict_step fst snd m_e]; auto.
    - unfold put. destruct (find (m_e m) k); auto.
    - rewrite (N1 k eq_refl). destruct (find (m_e m) k) eqn:E; cbn [fst snd m_e]; auto. split; [reflexivity|]. symmetry. apply delete_none. exact E. }
  destruct E as [-> <-]. f_equal. apply IH. exact N2.
Qed.
(** It is a dictionary that keeps the order of entries, if no call removes what it has put in itself. *)
Theorem C100_dict : forall os, Forall (good_op reads_back) os -> kept_run no_marks os -> no_fresh_removed no_marks os ->
  run o2r r2o nested make empty_st os = Some (dict_run [] os).
Proof. intros os F K N. rewrite C100_dict_as_marked by assumption. rewrite mark_is_dict by assumption. reflexivity. Qed.

(** A key with a comma cannot be put in. *)
Theorem C100_comma_raises : forall os x k a, In comma k -> after o2r r2o nested make empty_st os = Some x ->
  Forall (good_op reads_back) os -> kept_run no_marks os -> d_set o2r nested make x k a = None.
Proof.
  intros os x k a C E F K. destruct (after_ok o2r r2o nested make os empty_st no_marks (rel_empty o2r r2o nested make) F K) as (y & E2 & R). assert (y = x) by congruence. subst y.
  assert (NF : find (m_e (marks no_marks os)) k = None). { destruct (find (m_e (marks no_marks os)) k) eqn:EF; [|reflexivity]. exfalso. apply find_in in EF. pose proof (r_commas _ _ _ _ _ _ R) as FC. rewrite Forall_forall in FC. exact (FC k EF C). }
  assert (HC : existsb (Z.eqb comma) k = true) by (apply existsb_exists; exists comma; split; [exact C|apply Z.eqb_refl]).
  unfold d_set. destruct x as (s, o). cbn [snd].
  destruct (o_add o k) as [b|] eqn:EA; [destruct (r_add _ _ _ _ _ _ R k b EA); congruence|]. destruct (o_update o k) as [b|] eqn:EU; [pose proof (r_update _ _ _ _ _ _ R k b EU); congruence|].
  destruct (o_remove o k) eqn:ER; [unfold add_key; rewrite HC; reflexivity|]. destruct (cache_ok o2r r2o nested make (s, o) _ k R EA) as (y & _ & EC & _). rewrite NF in EC. rewrite EC. unfold add_key. rewrite HC. reflexivity.
Qed.

(** The first removal of a key that the call has put in leaves it, now and in later calls. *)
Theorem C100_removed_again_refuted : forall k a, no_comma k -> 1 < zlen k -> reads_back k a ->
  run o2r r2o nested make empty_st [OSet k a; ORemove k; OGet k; OKeys; OCall; OGet k; ORemove k; OGet k] =
    Some [RDone; RDone; RValue (Some a); RKeys [k]; RDone; RValue (Some a); RDone; RValue None].
Proof.
  intros k a N L RB. rewrite C100_dict_as_marked.
  - repeat progress (unfold upd; cbn [mark_run mark_step fst snd m_e m_fresh m_gone no_marks find app map negb dict_step delete filter]; rewrite ?bytes_eqb_refl). reflexivity.
  - repeat constructor; assumption.
  - cbn [kept_run]. repeat progress (unfold upd; cbn [mark_step fst snd m_e m_fresh m_gone no_marks find app map negb dict_step]; rewrite ?bytes_eqb_refl). repeat split; try discriminate. intros _. exact L.
Qed.
(** A single key of one character is lost at the end of the call. *)
Theorem C100_short_key_lost_refuted : forall k a, no_comma k -> zlen k <= 1 -> reads_back k a ->
  run o2r r2o nested make empty_st [OSet k a; OHas k; OCall; OHas k; OGet k; OKeys] = Some [RDone; RBool true; RDone; RBool false; RValue None; RKeys []].
Proof.
  intros k a N L RB.
  destruct (set_ok o2r r2o nested make empty_st no_marks k a (rel_empty o2r r2o nested make) N RB) as (y & E & R).
  cbn [run step]. rewrite E. cbn [mark_step no_marks m_e find snd] in R. rewrite (contains_ok o2r r2o nested make y _ k R). cbn [m_e app find]. rewrite bytes_eqb_refl.
  assert (EK : s_keys (fst (next_call (load y))) = k). { unfold next_call. cbn [fst]. rewrite load_fst. rewrite (r_string _ _ _ _ _ _ R). reflexivity. }
  destruct (next_call (load y)) as (s, o) eqn:EN. assert (EO : o = new_obj) by (unfold next_call in EN; injection EN as _ <-; reflexivity). subst o. cbn [fst] in EK.
  assert (EL : load (s, @new_obj A V) = (s, Obj (fun _ => None) [] true (fun _ => None) (fun _ => false) (fun _ => None))).
  { unfold load, new_obj. cbn [o_loaded o_cache o_keys o_add o_remove o_update]. rewrite EK. replace (1 <? zlen k) with false by lia. reflexivity. }
  unfold d_contains. rewrite EL. cbn [snd o_keys index_key]. unfold d_get. cbn [snd o_add o_update o_remove]. unfold d_cache, d_contains. cbn [snd o_cache]. unfold load. cbn [o_loaded snd o_keys index_key]. reflexivity.
Qed.
(** remove_all leaves every second key. *)
Theorem C100_remove_all_refuted : forall os x, Forall (good_op reads_back) os -> kept_run no_marks (os ++ [OCall]) ->
  after o2r r2o nested make empty_st (os ++ [OCall]) = Some x -> fst (d_keys (d_remove_all nested make x)) = second (fst (d_keys x)).
Proof.
  intros os x F K E. assert (F2 : Forall (good_op reads_back) (os ++ [OCall])) by (apply Forall_app; split; [exact F|repeat constructor]).
  destruct (after_ok o2r r2o nested make (os ++ [OCall]) empty_st no_marks (rel_empty o2r r2o nested make) F2 K) as (y & E2 & R). assert (y = x) by congruence. subst y.
  rewrite marks_app in R. cbn [marks mark_step snd] in R. destruct (remove_all_ok o2r r2o nested make x _ R ltac:(reflexivity)) as (m' & R' & E'). unfold d_keys. cbn [fst].
  rewrite (r_keys _ _ _ _ _ _ R), (r_keys _ _ _ _ _ _ R'), E'. cbn [m_e]. symmetry. apply (second_map _ _ fst (length (m_e (marks no_marks os)))). lia.
Qed.
End DICT.
Print Assumptions C100_dict_as_marked.
Print Assumptions C100_dict.
Print Assumptions C100_comma_raises.
Print Assumptions C100_removed_again_refuted.
Print Assumptions C100_short_key_lost_refuted.
Print Assumptions C100_remove_all_refuted.

(** Two calls with strings as values *)
Definition two_calls : list (op (list Z)) :=
  [OSet (str "ab") [1]; OSet (str "c") [2]; OSet (str "ab") [3]; OCall; OKeys; OGet (str "ab"); ORemove (str "ab"); OHas (str "ab"); OSet (str "d") [4]; OSet (str "ab") [5]; OCall; OKeys; OGet (str "ab")].
Example C100_ex_dict : Forall (good_op (reads_back (fun a : list Z => a) Some false (fun k => k))) two_calls /\ kept_run no_marks two_calls /\ no_fresh_removed no_marks two_calls /\
  dict_run [] two_calls = [RDone; RDone; RDone; RDone; RKeys [str "ab"; str "c"]; RValue (Some [3]); RDone; RBool false; RDone; RDone; RDone; RKeys [str "c"; str "d"; str "ab"]; RValue (Some [5])] /\
  run (fun a : list Z => a) Some false (fun k => k) empty_st two_calls = Some (dict_run [] two_calls).
Proof.
  split; [|split; [|split; [|split; [vm_compute; reflexivity|vm_compute; reflexivity]]]].
  - unfold two_calls. repeat constructor; vm_compute; intuition discriminate.
  - unfold two_calls. cbn [kept_run]. repeat split; try discriminate; intros _; vm_compute; exact Logic.I.
  - unfold two_calls. cbn [no_fresh_removed]. repeat split; intros k Q; try discriminate; injection Q as <-; vm_compute; reflexivity.
Qed.
(** Of the four relays of a link, two are left when all are removed. *)
Example C100_ex_remove_all : exists x, after (fun a : list Z => a) Some false (fun k => k) empty_st ([OSet (str "r1") [1]; OSet (str "r2") [2]; OSet (str "r3") [3]; OSet (str "r4") [4]] ++ [OCall]) = Some x /\
  fst (d_keys (d_remove_all false (fun k => k) x)) = [str "r2"; str "r4"].
Proof. eexists. split; [reflexivity|]. vm_compute. reflexivity. Qed.

(** ** Properties *)
Section PROPS.
Context (address : list Z -> bool) (reads : key -> list Z -> bool) (default : key -> option prop).
Notation run_props := (q_run int_bytes tc_int address reads default).
Notation after_props := (q_after int_bytes tc_int address reads default).
Lemma ints_back : forall n, tc_int (int_bytes n) = n.
Proof. intros n. rewrite tc_int_value, int_bytes_spec. destruct (BigIntToBytes_shortest n) as (_ & _ & E & _). exact E. Qed.
(** What is set is read back, in this and in later calls; what was not set or unset in an earlier call is the default. *)
Theorem C100_props : forall os, Forall (plain_op address reads) os -> run_props empty_props os = Some (i_run default (Ideal (fun _ => None) (fun _ => false)) os).
Proof. intros os F. apply (q_run_ok _ _ _ _ _ ints_back); [apply prel_empty|exact F]. Qed.
(** A bool is a bool until the end of the call and an int afterwards. *)
Theorem C100_bool_refuted : forall k b, run_props empty_props [QSet k (Some (VBool b)); QGet k; QCall; QGet k] = Some [None; Some (VBool b); None; Some (VInt (if b then 1 else 0))].
Proof.
  intros k b. cbn [q_run q_step p_set]. repeat progress (unfold p_get, upd, p_next_call; cbn [p_remove p_cache p_db empty_props]; rewrite ?bytes_eqb_refl).
  unfold to_stored, of_stored. cbn [Z.eqb Pos.eqb]. rewrite ints_back. reflexivity.
Qed.
(** After remove_all the properties have their defaults in the next call. *)
Theorem C100_props_removed : forall os p ks k, Forall (plain_op address reads) os -> after_props empty_props os = Some p -> In k ks ->
  exists q, p_remove_all tc_int address reads default p ks = Some q /\ exists r, p_get tc_int address reads default (p_next_call q) k = Some (default k, r).
Proof.
  intros os p ks k F E I. destruct (q_after_ok int_bytes tc_int address reads default ints_back os _ _ (prel_empty int_bytes address reads default) F) as (p' & j & E' & R). assert (p' = p) by congruence. subst p'.
  destruct (read_all_ok int_bytes tc_int address reads default ints_back ks p j R) as (q & EQ & RQ). unfold p_remove_all. rewrite EQ. eexists. split; [reflexivity|].
  destruct (read_all_cached _ _ _ _ _ _ _ EQ) as (C1 & C2 & _ & C4). unfold p_get, p_next_call. cbn [p_remove p_cache p_db].
  destruct (p_cache q k) eqn:EC; [eauto|]. destruct (C4 k I) as [ER|N]; [|congruence]. rewrite C2, (q_db _ _ _ _ _ _ R). rewrite (q_unset _ _ _ _ _ _ R k); [eauto|]. rewrite <- (q_gone _ _ _ _ _ _ R). exact ER.
Qed.
(** A property that is unset has no value until the end of the call and its default afterwards. *)
Theorem C100_unset_comes_back_refuted : forall k d v, default k = Some d -> plain address reads k v ->
  run_props empty_props [QSet k (Some v); QSet k None; QGet k; QCall; QGet k] = Some [None; None; None; None; Some d].
Proof.
  intros k d v D P. rewrite C100_props by (repeat constructor; assumption). cbn [i_run i_step fst snd]. unfold i_get. cbn [i_set i_unset]. rewrite !bytes_eqb_refl. cbn [i_set i_unset]. rewrite !bytes_eqb_refl. rewrite D. reflexivity.
Qed.
(** What is read as an address from the database is one, and what is read as an object can be read. *)
Theorem C100_props_checked : forall p k v q, p_get tc_int address reads default p k = Some (Some v, q) -> p_remove p k = false -> p_cache p k = None -> p_db p k <> None ->
  match v with VAddress r => address r = true | VObj r => reads k r = true | _ => True end.
Proof.
  intros p k v q E R C D. unfold p_get in E. rewrite R, C in E. destruct (p_db p k) as [b|]; [|congruence].
  destruct (of_stored tc_int address reads k b) as [w|] eqn:O; [|discriminate]. assert (w = v) by congruence. subst w. clear E.
  unfold of_stored in O. destruct b as [|t r]; [discriminate|].
  destruct (t =? 1); [assert (v = VInt (tc_int r)) by congruence; subst; exact I|].
  destruct (t =? 2); [assert (v = VStr r) by congruence; subst; exact I|].
  destruct (t =? 3); [assert (v = VBool (bytes_eqb r [1])) by congruence; subst; exact I|].
  destruct (t =? 4); [assert (v = VBytes r) by congruence; subst; exact I|].
  destruct (t =? 5); [destruct (address r) eqn:A; [|discriminate]; assert (v = VAddress r) by congruence; subst; exact A|].
  destruct (t =? 6); [assert (v = VBtp r) by congruence; subst; exact I|].
  destruct (t =? 7); [destruct (reads k r) eqn:A; [|discriminate]; assert (v = VObj r) by congruence; subst; exact A|]. discriminate.
Qed.
End PROPS.
Print Assumptions C100_props_checked.
Example C100_ex_checked : let p := Props (fun _ => Some [5; 1; 2]) (fun _ => None) (fun _ => false) in
  (exists q, p_get tc_int (fun r => Nat.eqb (List.length r) 2) (fun _ _ => true) (fun _ => None) p (str "owner") = Some (Some (VAddress [1; 2]), q)) /\
  p_get tc_int (fun r => Nat.eqb (List.length r) 3) (fun _ _ => true) (fun _ => None) p (str "owner") = None.
Proof. split; [eexists|]; reflexivity. Qed.
Print Assumptions C100_props.
Print Assumptions C100_bool_refuted.
Print Assumptions C100_props_removed.
Print Assumptions C100_unset_comes_back_refuted.

(** Properties of a link over two calls: the delay limit with its default 3 *)
Example C100_ex_props : let default := fun k => if bytes_eqb k (str "delay") then Some (VInt 3) else None in
  q_run int_bytes tc_int (fun _ => true) (fun _ _ => true) default empty_props
    [QGet (str "delay"); QSet (str "delay") (Some (VInt (-129))); QSet (str "addr") (Some (VBtp (str "btp://x/y"))); QCall; QGet (str "delay"); QGet (str "addr"); QGet (str "other")] =
  Some [Some (VInt 3); None; None; None; Some (VInt (-129)); Some (VBtp (str "btp://x/y")); None].
Proof. vm_compute. reflexivity. Qed.
