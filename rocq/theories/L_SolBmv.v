(** Lemmas for the Solidity BTP block verifier: the ring buffer is a queue, and the levels compute the Merkle root. *)
From Coq Require Import String Ascii ZArith List Bool Lia.
From Coq Require Import ZifyBool.
From Verif Require Import Base L_Base M_Mbt S_Mbt L_Mbt L_Mbt2 L_Mbt3 M_SolRlp M_Bridge M_SolBmv.
Import ListNotations.
Open Scope Z_scope.

Lemma require_some : forall b u, require b = Some u -> b = true.
Proof. intros [] u E; [reflexivity|discriminate]. Qed.
Ltac sb E x F := match type of E with sbind ?o _ = Some _ => destruct o as [x|] eqn:F; cbn [sbind] in E; [|discriminate E] end.
Ltac sreq E F := let u := fresh "u" in sb E u F; apply require_some in F; clear u.

(** ** the ring buffer *)
Definition ix (q : squeue) (i : nat) : nat := ((q_front q + i) mod length (q_nodes q))%nat.
Definition qrep (q : squeue) (l : list snode) : Prop :=
  q_len q = length l /\ (length l <= length (q_nodes q))%nat /\ (length (q_nodes q) = 0 \/ q_front q < length (q_nodes q))%nat /\
  q_rear q = ix q (length l) /\ forall i, (i < length l)%nat -> nth_error (q_nodes q) (ix q i) = nth_error l i.

Lemma write_at_spec : forall A (l : list A) i x, (i < length l)%nat -> exists l', write_at l i x = Some l' /\ length l' = length l /\
  nth_error l' i = Some x /\ forall j, j <> i -> nth_error l' j = nth_error l j.
Proof.
  induction l as [|y l IH]; intros i x Hi; [cbn in Hi; lia|]. destruct i as [|i]; cbn [write_at].
  - exists (x :: l). repeat split. intros [|j] Hj; [congruence|reflexivity].
  - cbn [length] in Hi. destruct (IH i x ltac:(lia)) as (l' & -> & L & N1 & N2). cbn [sbind]. exists (y :: l'). cbn [length nth_error]. repeat split; auto.
    intros [|j] Hj; [reflexivity|]. cbn [nth_error]. apply N2. lia.
Qed.

Lemma mod_ring : forall a n, (a < 2 * n)%nat -> (a mod n = if a <? n then a else a - n)%nat.
Proof.
  intros a n Ha. destruct (a <? n)%nat eqn:E; [apply Nat.mod_small; lia|]. replace a with ((a - n) + 1 * n)%nat at 1 by lia.
  rewrite Nat.mod_add by lia. apply Nat.mod_small. lia.
Qed.

Lemma push_rep : forall q l x, qrep q l -> (length l < length (q_nodes q))%nat ->
  exists q', q_push q x = Some q' /\ qrep q' (l ++ [x]) /\ length (q_nodes q') = length (q_nodes q).
Proof.
  intros [f r n ns] l x. unfold qrep, ix. cbn [q_front q_rear q_len q_nodes]. intros (E1 & E2 & E3 & E4 & E5) L. unfold q_push. cbn [q_front q_rear q_len q_nodes].
  replace (n <? length ns)%nat with true by lia. cbn [require sbind].
  assert (R : (r < length ns)%nat) by (rewrite E4; apply Nat.mod_upper_bound; lia).
  destruct (write_at_spec _ ns r x R) as (ns' & -> & L' & N1 & N2). cbn [sbind]. eexists. split; [reflexivity|]. cbn [q_front q_rear q_len q_nodes].
  rewrite L', app_length. cbn [length]. split; [|reflexivity]. split; [lia|]. split; [lia|]. split; [lia|]. split.
  - rewrite mod_ring in E4 by lia. rewrite mod_ring by lia. destruct (S r =? length ns)%nat eqn:A; destruct (f + length l <? length ns)%nat eqn:B; destruct (f + (length l + 1) <? length ns)%nat eqn:C; lia.
  - intros i Hi. destruct (Nat.eq_dec i (length l)) as [->|Hne].
    + rewrite <- E4, N1. rewrite nth_error_app2, Nat.sub_diag by lia. reflexivity.
    + rewrite nth_error_app1 by lia. rewrite <- E5 by lia. apply N2. rewrite E4. rewrite !mod_ring by lia.
      destruct (f + i <? length ns)%nat eqn:A; destruct (f + length l <? length ns)%nat eqn:B; lia.
Qed.

Lemma pop_rep : forall q l x, qrep q (x :: l) ->
  exists q', q_pop q = Some (x, q') /\ qrep q' l /\ length (q_nodes q') = length (q_nodes q).
Proof.
  intros [f r n ns] l x. unfold qrep, ix. cbn [q_front q_rear q_len q_nodes length]. intros (E1 & E2 & E3 & E4 & E5). unfold q_pop. cbn [q_front q_rear q_len q_nodes]. rewrite E1.
  pose proof (E5 0%nat ltac:(lia)) as E0. rewrite Nat.add_0_r, Nat.mod_small in E0 by lia. unfold at_index. rewrite E0. cbn [nth_error sbind].
  eexists. split; [reflexivity|]. cbn [q_front q_rear q_len q_nodes]. split; [|reflexivity]. split; [reflexivity|]. split; [lia|].
  split; [destruct (S f =? length ns)%nat eqn:A; lia|]. split.
  - rewrite E4. rewrite !mod_ring by (destruct (S f =? length ns)%nat eqn:A; lia). destruct (S f =? length ns)%nat eqn:A; destruct (f + S (length l) <? length ns)%nat eqn:B;
      [destruct (0 + length l <? length ns)%nat eqn:C|destruct (0 + length l <? length ns)%nat eqn:C|destruct (S f + length l <? length ns)%nat eqn:C|destruct (S f + length l <? length ns)%nat eqn:C]; lia.
  - intros i Hi. specialize (E5 (S i) ltac:(lia)). cbn [nth_error] in E5. rewrite <- E5. f_equal. rewrite !mod_ring by (destruct (S f =? length ns)%nat eqn:A; lia).
    destruct (S f =? length ns)%nat eqn:A; destruct (f + S i <? length ns)%nat eqn:B;
      [destruct (0 + i <? length ns)%nat eqn:C|destruct (0 + i <? length ns)%nat eqn:C|destruct (S f + i <? length ns)%nat eqn:C|destruct (S f + i <? length ns)%nat eqn:C]; lia.
Qed.
Lemma pop_empty : forall q, qrep q [] -> q_pop q = None.
Proof. intros q (E & _). unfold q_pop. rewrite E. reflexivity. Qed.

Lemma push_all_rep : forall l2 q l, qrep q l -> (length l + length l2 <= length (q_nodes q))%nat ->
  exists q', push_all q l2 = Some q' /\ qrep q' (l ++ l2) /\ length (q_nodes q') = length (q_nodes q).
Proof.
  induction l2 as [|x l2 IH]; intros q l R L; cbn [push_all].
  - exists q. rewrite app_nil_r. auto.
  - cbn [length] in L. destruct (push_rep q l x R ltac:(lia)) as (q1 & -> & R1 & L1). cbn [sbind].
    destruct (IH q1 (l ++ [x]) R1) as (q2 & E & R2 & L2); [rewrite app_length; cbn [length]; lia|]. exists q2. rewrite <- app_assoc in R2. split; [exact E|]. split; [exact R2|lia].
Qed.

Lemma nth_ext_error : forall A (a b : list A), (forall i, nth_error a i = nth_error b i) -> a = b.
Proof.
  induction a as [|x a IH]; intros [|y b] E; [reflexivity|specialize (E 0%nat); discriminate|specialize (E 0%nat); discriminate|].
  pose proof (E 0%nat) as E0. cbn in E0. injection E0 as ->. f_equal. apply IH. intros i. exact (E (S i)).
Qed.

Section Levels.
Variable H : list Z -> list Z.

(** one level on lists *)
Fixpoint pass (fuel : nat) (i : Z) (l : list snode) : option (list snode) :=
  match fuel with
  | O => None
  | S f =>
      match l with
      | [] => Some []
      | [x] => Some [x]
      | x :: (y :: r) as t => if sn_level x <=? i + 1 then sbind (s_concat H x y) (fun c => sbind (pass f i r) (fun r' => Some (c :: r')))
                              else sbind (pass f i t) (fun r' => Some (x :: r'))
      end
  end.
Definition passl (i : Z) (l : list snode) : option (list snode) := pass (S (length l)) i l.
Lemma pass_fuel : forall f i l, (length l < f)%nat -> pass f i l = passl i l.
Proof.
  unfold passl. assert (G : forall n f f' i l, (length l <= n)%nat -> (length l < f)%nat -> (length l < f')%nat -> pass f i l = pass f' i l).
  { induction n as [|n IH]; intros [|f] [|f'] i l Hn Hf Hf'; try lia; cbn [pass]; (destruct l as [|x [|y r]]; [reflexivity|reflexivity|]); cbn [length] in *; [lia|].
    destruct (sn_level x <=? i + 1).
    - destruct (s_concat H x y); [|reflexivity]. cbn [sbind]. rewrite (IH f f' i r) by lia. reflexivity.
    - rewrite (IH f f' i (y :: r)) by (cbn [length]; lia). reflexivity. }
  intros. apply (G (length l)); lia.
Qed.
Lemma passl_nil : forall i, passl i [] = Some [].
Proof. reflexivity. Qed.
Lemma passl_one : forall i x, passl i [x] = Some [x].
Proof. reflexivity. Qed.
Lemma passl_two : forall i x y r, passl i (x :: y :: r) =
  if sn_level x <=? i + 1 then sbind (s_concat H x y) (fun c => sbind (passl i r) (fun r' => Some (c :: r'))) else sbind (passl i (y :: r)) (fun r' => Some (x :: r')).
Proof.
  intros. unfold passl at 1. cbn [pass]. destruct (sn_level x <=? i + 1); [|rewrite pass_fuel by (cbn [length]; lia); reflexivity].
  destruct (s_concat H x y); [|reflexivity]. cbn [sbind]. rewrite pass_fuel by (cbn [length]; lia). reflexivity.
Qed.

Definition agrees (n : nat) (r : option squeue) (l : option (list snode)) : Prop :=
  match l with Some l => exists q, r = Some q /\ qrep q l /\ length (q_nodes q) = n | None => r = None end.

Lemma turns_rep : forall f i t j q olds news, qrep q (olds ++ news) -> t - j = zlen olds -> (length olds <= f)%nat ->
  agrees (length (q_nodes q)) (level_turns H f i t j (zlen olds) q) (sbind (passl i olds) (fun o => Some (news ++ o))).
Proof.
  induction f as [|f IH]; intros i t j q olds news R T F; pose proof (zlen_nonneg _ olds).
  - destruct olds; [|cbn [length] in F; lia]. change (zlen (@nil snode)) with 0 in *. cbn [level_turns]. replace (t <=? j) with true by lia. rewrite passl_nil. cbn [sbind agrees]. rewrite app_nil_r. exists q. auto.
  - destruct olds as [|x olds].
    + change (zlen (@nil snode)) with 0 in *. cbn [level_turns]. replace (t <=? j) with true by lia. rewrite passl_nil. cbn [sbind agrees]. rewrite app_nil_r. exists q. auto.
    + cbn [length] in F. rewrite zlen_cons in *. pose proof (zlen_nonneg _ olds). cbn [level_turns]. replace (t <=? j) with false by lia. cbn [app] in R. pose proof R as R0.
      destruct (pop_rep _ _ _ R) as (q1 & -> & R1 & L1). cbn [sbind]. unfold csub at 1. replace (zlen olds + 1 <? 1) with false by lia. cbn [sbind]. replace (zlen olds + 1 - 1) with (zlen olds) by lia.
      destruct R0 as (_ & C0 & _). cbn [length] in C0. rewrite app_length in C0.
      destruct olds as [|y olds].
      * change (zlen (@nil snode)) with 0 in *. replace (0 <? 0) with false by reflexivity. rewrite andb_false_r. cbn [app] in R1.
        destruct (push_rep q1 news x R1 ltac:(lia)) as (q2 & -> & R2 & L2). cbn [sbind].
        specialize (IH i t (j + 1) q2 [] (news ++ [x]) R2 ltac:(cbn; lia) ltac:(cbn; lia)). rewrite passl_nil in IH. cbn [sbind] in IH. rewrite app_nil_r in IH. change (zlen (@nil snode)) with 0 in IH. rewrite passl_one. cbn [sbind]. rewrite L2, L1 in IH. exact IH.
      * rewrite zlen_cons in *. pose proof (zlen_nonneg _ olds). replace (0 <? zlen olds + 1) with true by lia. rewrite andb_true_r, passl_two. cbn [length] in *. destruct (sn_level x <=? i + 1).
        -- cbn [app] in R1. destruct (pop_rep _ _ _ R1) as (q2 & -> & R2 & L2). cbn [sbind]. destruct (s_concat H x y) as [c|]; [|reflexivity]. cbn [sbind]. unfold csub. replace (zlen olds + 1 <? 1) with false by lia. cbn [sbind].
           replace (zlen olds + 1 - 1) with (zlen olds) by lia.
           destruct (push_rep q2 (olds ++ news) c R2 ltac:(rewrite app_length; lia)) as (q3 & -> & R3 & L3). cbn [sbind]. rewrite <- app_assoc in R3.
           specialize (IH i t (j + 2) q3 olds (news ++ [c]) R3 ltac:(lia) ltac:(lia)). rewrite L3, L2, L1 in IH.
           destruct (passl i olds) as [o|]; cbn [sbind] in IH |- *; [|exact IH]. rewrite <- app_assoc in IH. exact IH.
        -- destruct (push_rep q1 ((y :: olds) ++ news) x R1 ltac:(rewrite app_length; cbn [length]; lia)) as (q2 & -> & R2 & L2). cbn [sbind]. rewrite <- app_assoc in R2.
           specialize (IH i t (j + 1) q2 (y :: olds) (news ++ [x]) R2 ltac:(rewrite zlen_cons; lia) ltac:(cbn [length]; lia)). rewrite L2, L1, zlen_cons in IH.
           destruct (passl i (y :: olds)) as [o|]; cbn [sbind] in IH |- *; [|exact IH]. rewrite <- app_assoc in IH. exact IH.
Qed.

Fixpoint passes (n : nat) (i : Z) (l : list snode) : option (list snode) :=
  match n with O => Some l | S n' => sbind (passl i l) (passes n' (i + 1)) end.
Lemma levels_rep : forall n i q l, qrep q l -> agrees (length (q_nodes q)) (levels H n i q) (passes n i l).
Proof.
  induction n as [|n IH]; intros i q l R; cbn [levels passes].
  - exists q. auto.
  - pose proof R as R0. destruct R0 as (E & _). pose proof (turns_rep (q_len q) i (Z.of_nat (q_len q)) 0 q l []) as T. rewrite app_nil_r in T.
    specialize (T R). rewrite E in T. specialize (T ltac:(unfold zlen; lia) ltac:(lia)). rewrite E. fold (zlen l). fold (zlen l) in T.
    destruct (passl i l) as [o|]; cbn [sbind app] in T |- *.
    + destruct T as (q' & -> & R' & L'). cbn [sbind]. rewrite <- L'. apply IH. exact R'.
    + cbn in T. rewrite T. reflexivity.
Qed.

Definition nodes_of (p : sproof) : list snode := sp_lefts p ++ map (fun m => SNode 1 1 (H m)) (sp_mesgs p) ++ sp_rights p.

Lemma push_all_front : forall l a b, push_all a l = Some b -> q_front b = q_front a.
Proof.
  induction l as [|x l IHl]; intros a b E; cbn [push_all] in E; [injection E as ->; reflexivity|]. sb E c E1. rewrite (IHl _ _ E).
  unfold q_push in E1. sreq E1 E2. sb E1 d E3. injection E1 as <-. reflexivity.
Qed.

Lemma toQueue_rep : forall p, exists q, toQueue H p = Some q /\ qrep q (nodes_of p) /\ q_nodes q = nodes_of p.
Proof.
  intros p. unfold toQueue. set (n := (length (sp_lefts p) + length (sp_mesgs p) + length (sp_rights p))%nat).
  assert (R0 : qrep (SQueue 0 0 0 (repeat (SNode 0 0 zero32) n)) []).
  { unfold qrep, ix. cbn [q_front q_rear q_len q_nodes length]. rewrite repeat_length. repeat split; try lia.
    cbn [Nat.add]. destruct n; [reflexivity|]. rewrite Nat.mod_small; lia. }
  assert (N : length (q_nodes (SQueue 0 0 0 (repeat (SNode 0 0 zero32) n))) = n) by (cbn [q_nodes]; apply repeat_length).
  destruct (push_all_rep (sp_lefts p) _ [] R0) as (q1 & E1 & R1 & L1); [rewrite N; cbn [length]; lia|]. rewrite E1. cbn [sbind]. cbn [app] in R1.
  destruct (push_all_rep (map (fun m => SNode 1 1 (H m)) (sp_mesgs p)) _ _ R1) as (q2 & E2 & R2 & L2); [rewrite L1, N, map_length; lia|]. rewrite E2. cbn [sbind].
  destruct (push_all_rep (sp_rights p) _ _ R2) as (q3 & E3 & R3 & L3); [rewrite L2, L1, N, app_length, map_length; lia|].
  exists q3. rewrite <- app_assoc in R3. fold (nodes_of p) in R3. split; [exact E3|]. split; [exact R3|].
  assert (F : q_front q3 = O) by (rewrite (push_all_front _ _ _ E3), (push_all_front _ _ _ E2), (push_all_front _ _ _ E1); reflexivity).
  assert (M : length (q_nodes q3) = length (nodes_of p)).
  { rewrite L3, L2, L1, N. unfold nodes_of. rewrite !app_length, map_length. lia. }
  destruct R3 as (_ & _ & _ & _ & R). unfold ix in R. rewrite F, M in R. apply nth_ext_error. intros i. destruct (Nat.lt_ge_cases i (length (nodes_of p))) as [Hi|Hi].
  - rewrite <- (R i Hi). cbn [Nat.add]. rewrite Nat.mod_small by lia. reflexivity.
  - rewrite (proj2 (nth_error_None _ _)) by lia. symmetry. apply nth_error_None. lia.
Qed.

(** the whole calculation, on lists *)
Definition leafsum (l : list snode) : Z := fold_right (fun x a => sn_count x + a) 0 l.
Lemma getLeafCount_spec : forall l a, Forall (fun x => 0 <= sn_count x) l -> 0 <= a -> getLeafCount l a = if (leafsum l + a <? 2 ^ 256) then Some (leafsum l + a) else if a <? 2 ^ 256 then None else getLeafCount l a.
Proof.
  unfold leafsum. induction l as [|x l IH]; intros a F Ha; cbn [getLeafCount fold_right].
  - replace (0 + a) with a by lia. destruct (a <? 2 ^ 256); reflexivity.
  - inversion F as [|? ? F1 F2]; subst. unfold cadd. assert (0 <= fold_right (fun x a => sn_count x + a) 0 l) by (clear - F2; induction F2; cbn [fold_right]; lia).
    destruct (a + sn_count x <? 2 ^ 256) eqn:E; cbn [sbind].
    + rewrite IH by (assumption || lia). rewrite E. replace (sn_count x + fold_right (fun x0 a0 => sn_count x0 + a0) 0 l + a) with (fold_right (fun x0 a0 => sn_count x0 + a0) 0 l + (a + sn_count x)) by lia.
      replace (a <? 2 ^ 256) with true by lia. reflexivity.
    + replace (sn_count x + fold_right (fun x0 a0 => sn_count x0 + a0) 0 l + a <? 2 ^ 256) with false by lia. destruct (a <? 2 ^ 256); reflexivity.
Qed.

Lemma calculate_spec : forall p, Forall (fun x => 0 <= sn_count x) (nodes_of p) ->
  s_calculate H p = if leafsum (nodes_of p) <? 2 ^ 256 then
    sbind (passes (Z.to_nat (maxLevel 256 (leafsum (nodes_of p)) 1)) 0 (nodes_of p)) (fun l => match l with [x] => Some (sn_hash x, leafsum (nodes_of p)) | _ => None end) else None.
Proof.
  intros p F. unfold s_calculate. destruct (toQueue_rep p) as (q & -> & R & N). cbn [sbind]. rewrite N, getLeafCount_spec by (assumption || lia). rewrite Z.add_0_r.
  destruct (leafsum (nodes_of p) <? 2 ^ 256); [|reflexivity]. cbn [sbind].
  pose proof (levels_rep (Z.to_nat (maxLevel 256 (leafsum (nodes_of p)) 1)) 0 q _ R) as L. destruct (passes _ 0 (nodes_of p)) as [l|]; cbn [sbind agrees] in *; [|rewrite L; reflexivity].
  destruct L as (q' & -> & R' & _). cbn [sbind]. pose proof R' as (E & _). rewrite E. destruct l as [|x [|y l]]; [reflexivity| |reflexivity].
  cbn [length Nat.eqb require sbind]. destruct (pop_rep _ _ _ R') as (q2 & -> & _). reflexivity.
Qed.
End Levels.
