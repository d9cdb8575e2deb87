From Coq Require Import String Ascii ZArith List Bool Lia.
From Coq Require Import ZifyBool Permutation.
From Verif Require Import Base L_Base GoStr M_JMap M_PyBmv M_PyBmc M_PyToken S_PyToken M_PyPair S_PyPair L_JMap L_PyToken.
Import ListNotations.
Open Scope Z_scope.
Local Notation bytes := (list Z).

(** * Sums *)
Lemma worth_parts : forall s n, worth s n = free s n + held s n.
Proof. intros s n. unfold worth, free, held. induction (t_bal s) as [|[k b] l IH]; [reflexivity|]. cbn [worth_of free_of held_of]. rewrite IH. destruct (bytes_eqb _ _); lia. Qed.
Lemma held_bdel : forall k l n, NoDup (map fst l) -> held_of (bdel k l) n = held_of l n - at_name k n (snd (value_at k l)).
Proof.
  intros k l n. unfold value_at. induction l as [|[y v] l IH]; intros N; [cbn; unfold at_name; destruct (bytes_eqb _ _); reflexivity|].
  cbn [map fst] in N. inversion N as [|? ? A B]; subst. cbn [bdel aget]. destruct (kspec k y) as [<-|Ny].
  - rewrite (worth_bdel_none k l A). cbn [held_of]. unfold at_name. lia.
  - cbn [held_of]. rewrite (IH B). lia.
Qed.
Lemma held_aput : forall k b l n, NoDup (map fst l) -> held_of (aput key_eqb k b l) n = held_of l n - at_name k n (snd (value_at k l)) + at_name k n (snd b).
Proof.
  intros k b l n. unfold value_at. induction l as [|[y v] l IH]; intros N; [cbn [aput held_of aget fst snd]; unfold at_name; destruct (bytes_eqb (snd k) n); lia|].
  cbn [map fst] in N. inversion N as [|? ? A B]; subst. cbn [aput aget]. destruct (kspec k y) as [<-|Ny]; cbn [held_of].
  - unfold at_name. destruct (bytes_eqb (snd k) n); lia.
  - rewrite (IH B). lia.
Qed.
Lemma held_update : forall s u n du dl m, NoDup (map fst (t_bal s)) -> held (update s u n du dl) m = held s m + (if bytes_eqb n m then dl else 0).
Proof.
  intros s u n du dl m N. unfold held, update. cbn [t_bal with_bal]. unfold balance. change (match aget key_eqb (u, n) (t_bal s) with Some b => b | None => (0, 0) end) with (value_at (u, n) (t_bal s)).
  set (b := value_at (u, n) (t_bal s)). destruct ((fst b + du =? 0) && (snd b + dl =? 0)) eqn:Z.
  - rewrite held_bdel by exact N. fold b. unfold at_name. cbn [snd]. apply andb_true_iff in Z. destruct Z as [A B]. destruct (bytes_eqb n m); lia.
  - rewrite held_aput by exact N. fold b. unfold at_name. cbn [fst snd]. destruct (bytes_eqb n m); lia.
Qed.
Lemma held_ext : forall s s' n, t_bal s' = t_bal s -> held s' n = held s n.
Proof. intros s s' n E. unfold held. rewrite E. reflexivity. Qed.
Fixpoint osum (l : list (Z * pend)) (n : bytes) : Z := match l with [] => 0 | (_, p) :: r => (if bytes_eqb (q_name p) n then q_value p else 0) + osum r n end.
Lemma osum_app : forall a b n, osum (a ++ b) n = osum a n + osum b n.
Proof. induction a as [|[k p] a IH]; intros b n; cbn [osum app]; [lia|rewrite IH; lia]. Qed.
Lemma osum_zdel : forall k p l n, NoDup (map fst l) -> In (k, p) l -> osum (zdel k l) n = osum l n - (if bytes_eqb (q_name p) n then q_value p else 0).
Proof.
  intros k p l n. induction l as [|[y q] l IH]; intros N I; [destruct I|]. cbn [map fst] in N. inversion N as [|? ? A B]; subst. cbn [zdel]. destruct I as [E|I].
  - injection E as -> ->. rewrite Z.eqb_refl, (zdel_none _ _ _ A). cbn [osum]. lia.
  - destruct (Z.eqb_spec k y) as [->|]; [elim A; change y with (fst (y, p)); apply in_map, I|]. cbn [osum]. rewrite (IH B I). lia.
Qed.
Lemma osum_nonneg : forall l n, (forall k p, In (k, p) l -> 0 <= q_value p) -> 0 <= osum l n.
Proof. induction l as [|[k p] l IH]; intros n P; cbn [osum]; [lia|]. pose proof (P k p (or_introl eq_refl)). assert (0 <= osum l n) by (apply IH; intros; eapply P; right; eassumption). destruct (bytes_eqb _ _); lia. Qed.
Definition holds (s : tstate) : Prop := forall n, held s n = osum (t_pending s) n.
Lemma open_get : forall s k p, tidy s -> (is_open s k p <-> aget Z.eqb k (t_pending s) = Some p).
Proof. intros s k p T. split; [intros O; exact (aget_unique _ Z.eqb_eq k p _ (proj1 T) O)|apply zget_in]. Qed.

Section ONE.
Variable addr_of : bytes -> option bytes.
Lemma step_holds : forall s c s', tidy s -> tcall_result addr_of s c = Val s' -> holds s -> holds s'.
Proof.
  intros s c s' T E Hs n0. pose proof (proj2 (proj2 (proj2 (proj2 (proj2 (proj2 T)))))) as N. specialize (Hs n0). destruct c as [x n a|x n|x f v|x n v ok|x n t v ok|x net sn m ok|x sn]; cbn [tcall_result] in E.
  - unfold t_register in E. destruct (negb _); [discriminate E|]. destruct (kget n (t_addr s)); [discriminate E|]. injection E as <-. exact Hs.
  - unfold t_unregister in E. destruct (negb _); [discriminate E|]. destruct (kget n (t_addr s)); [|discriminate E]. injection E as <-. exact Hs.
  - unfold t_fallback in E. destruct (v <? 0); [discriminate E|]. destruct (name_of s x) as [[|ch n]|]; try discriminate E. assert (E' : s' = update s f (ch :: n) v 0) by congruence. clear E. subst s'. rewrite (held_update _ _ _ _ _ _ N). cbn [update with_bal t_pending]. destruct (bytes_eqb _ _); lia.
  - unfold t_reclaim in E. destruct (v <? 0); [discriminate E|]. destruct (kget n (t_addr s)) as [a|]; [|discriminate E]. destruct (_ <? v); [discriminate E|]. destruct ok; [|discriminate E].
    assert (E' : s' = tell (update s x n (- v) 0) (TPay a x v)) by congruence. clear E. subst s'. rewrite (held_ext (update s x n (- v) 0)) by reflexivity. rewrite (held_update _ _ _ _ _ _ N). cbn [tell update with_bal t_pending]. destruct (bytes_eqb _ _); lia.
  - unfold t_transfer in E. destruct (kget n (t_addr s)) as [a|]; [|discriminate E]. destruct (v <? 0); [discriminate E|]. destruct (valid_address t) as [p|[|]]; try discriminate E. destruct (_ <? v); [discriminate E|].
    unfold t_send in E. destruct ok; [|discriminate E]. cbn [bind] in E. injection E as <-. rewrite (held_ext (update s x n (- v) v)) by reflexivity. rewrite (held_update _ _ _ _ _ _ N). cbn [tell with_pending update with_bal t_pending t_sn]. rewrite (aput_new _ Z.eqb_eq) by (apply fresh, T). rewrite osum_app. cbn [osum q_name q_value]. destruct (bytes_eqb _ _); lia.
  - unfold t_message in E. destruct (negb _); [discriminate E|]. destruct m as [to n v|code|type|]; [| | |discriminate E].
    + destruct (addr_of to) as [u|]; [|discriminate E]. cbn [need bind] in E. unfold t_send in E. destruct (kget n (t_addr s)) as [a|]; (destruct ok; [|discriminate E]); injection E as <-; [|exact Hs].
      rewrite (held_ext (update s u n v 0)) by reflexivity. rewrite (held_update _ _ _ _ _ _ N). cbn [tell update with_bal t_pending]. destruct (bytes_eqb _ _); lia.
    + destruct (aget Z.eqb sn (t_pending s)) as [p|] eqn:G; [|discriminate E]. apply zget_in in G.
      assert (E' : exists a, s' = tell (with_pending (update s (q_from p) (q_name p) a (- q_value p)) (t_sn s) (zdel sn (t_pending s))) (TEnd sn code)) by (destruct (code =? 0); injection E as <-; eexists; reflexivity). clear E. destruct E' as (a & ->).
      rewrite (held_ext (update s (q_from p) (q_name p) a (- q_value p))) by reflexivity. rewrite (held_update _ _ _ _ _ _ N). cbn [tell with_pending t_pending]. rewrite (osum_zdel sn p _ n0 (proj1 T) G). destruct (bytes_eqb _ _); lia.
    + unfold t_send in E. destruct ok; [|discriminate E]. injection E as <-. exact Hs.
  - unfold t_error in E. destruct (negb _); [discriminate E|]. destruct (aget Z.eqb sn (t_pending s)) as [p|] eqn:G; [|discriminate E]. apply zget_in in G. injection E as <-. rewrite (held_ext (update s (q_from p) (q_name p) (q_value p) (- q_value p))) by reflexivity. rewrite (held_update _ _ _ _ _ _ N). cbn [with_pending t_pending update with_bal]. rewrite (osum_zdel sn p _ n0 (proj1 T) G). destruct (bytes_eqb _ _); lia.
Qed.
End ONE.

(** * On the way *)
Lemma asked_app : forall a b, asked (a ++ b) = asked a ++ asked b.
Proof. induction a as [|[k []] a IH]; intros b; cbn [asked app]; rewrite ?IH; reflexivity. Qed.
Lemma answered_app : forall a b, answered (a ++ b) = answered a ++ answered b.
Proof. induction a as [|[k []] a IH]; intros b; cbn [answered app]; rewrite ?IH; reflexivity. Qed.
Lemma twice_app : forall s a b n, twice s (a ++ b) n = twice s a n + twice s b n.
Proof. induction a as [|[k []] a IH]; intros b n; cbn [twice app]; rewrite ?IH; try lia. destruct code; lia. Qed.
Lemma twice_ext : forall s s' l n, (forall k, In k (answered l) -> aget Z.eqb k (t_pending s') = aget Z.eqb k (t_pending s)) -> twice s' l n = twice s l n.
Proof.
  intros s s' l n. induction l as [|[k m] l IH]; intros P; [reflexivity|]. destruct m; cbn [twice answered] in *; try (apply IH; exact P). rewrite (IH (fun j I => P j (or_intror I))). unfold open_value. rewrite (P k (or_introl eq_refl)). reflexivity.
Qed.
Lemma in_asked : forall l k, In k (asked l) <-> exists to n v, In (k, JReq to n v) l.
Proof.
  induction l as [|[j m] l IH]; intros k; [split; [intros []|intros (? & ? & ? & [])]|]. destruct m; cbn [asked In]; rewrite IH; split; intros H;
    try solve [destruct H as (t & n & v & H); exists t, n, v; auto]; try solve [destruct H as (t & n & v & [H|H]); [discriminate H|eauto]].
  - destruct H as [<-|(t & n & v & H)]; [do 3 eexists; left; reflexivity|exists t, n, v; auto].
  - destruct H as (t & n & v & [H|H]); [injection H as -> _ _ _; auto|right; eauto].
Qed.
Lemma in_answered : forall l k, In k (answered l) <-> exists c, In (k, JRes c) l.
Proof.
  induction l as [|[j m] l IH]; intros k; [split; [intros []|intros (? & [])]|]. destruct m; cbn [answered In]; rewrite IH; split; intros H;
    try solve [destruct H as (c & H); exists c; auto]; try solve [destruct H as (c & [H|H]); [discriminate H|eauto]].
  - destruct H as [<-|(c & H)]; [eexists; left; reflexivity|exists c; auto].
  - destruct H as (c & [H|H]); [injection H as -> _; auto|right; eauto].
Qed.
Lemma sent_said : forall net s s' l, said s s' l -> sent net s s' = for_net net l.
Proof. intros net s s' l S. unfold sent. unfold said in S. rewrite S, skipn_app, skipn_all, Nat.sub_diag. reflexivity. Qed.

(** One side in order: [s] with what it has sent and what comes to it *)
Definition good (s : tstate) (out inn : list (Z * jmsg)) : Prop :=
  NoDup (asked out ++ answered inn) /\ (forall k, In k (answered inn) -> exists p, is_open s k p) /\
  (forall k to n v, In (k, JReq to n v) out -> exists p, is_open s k p /\ q_name p = n /\ q_value p = v) /\
  (forall k m, In (k, m) out -> (exists to n v, m = JReq to n v) \/ exists c, m = JRes c).
Definition all_out (s : tstate) (out inn : list (Z * jmsg)) : Prop := forall k p, is_open s k p -> In k (asked out ++ answered inn).
Definition sound (x : pair) : Prop :=
  tidy (p_a x) /\ tidy (p_b x) /\ holds (p_a x) /\ holds (p_b x) /\ good (p_a x) (p_ab x) (p_ba x) /\ good (p_b x) (p_ba x) (p_ab x).
Definition total (x : pair) (d : bytes -> Z) : Prop := forall n, worth (p_a x) n + worth (p_b x) n = d n + twice (p_a x) (p_ba x) n + twice (p_b x) (p_ab x) n.
Lemma flip_sound : forall x, sound (flip x) -> sound x.
Proof. intros [a b l r] (A & B & C & D & E & F). cbn in *. repeat (split; [assumption|]). assumption. Qed.
Lemma flip_total : forall x d, total (flip x) d -> total x d.
Proof. intros [a b l r] d H n. specialize (H n). cbn in *. lia. Qed.
Lemma good_open : forall s out inn, good s out inn -> forall k, In k (asked out ++ answered inn) -> exists p, is_open s k p.
Proof. intros s out inn (_ & A & B & _) k I. apply in_app_or in I. destruct I as [I|I]; [|exact (A k I)]. apply in_asked in I. destruct I as (t & n & v & I). destruct (B k t n v I) as (p & O & _). exists p. exact O. Qed.
Lemma same_get : forall s s', tidy s -> tidy s' -> same_open s s' -> forall k, aget Z.eqb k (t_pending s') = aget Z.eqb k (t_pending s).
Proof.
  intros s s' T T' (_ & I) k. destruct (aget Z.eqb k (t_pending s')) as [p|] eqn:A.
  - apply open_get in A; [|exact T']. apply I in A. apply open_get in A; [|exact T]. rewrite A. reflexivity.
  - destruct (aget Z.eqb k (t_pending s)) as [p|] eqn:B; [|reflexivity]. apply open_get in B; [|exact T]. apply I in B. apply open_get in B; [|exact T']. congruence.
Qed.
Lemma good_same : forall s s' out inn, same_open s s' -> good s out inn -> good s' out inn.
Proof.
  intros s s' out inn (_ & I) (A & B & C & D). split; [exact A|]. split; [intros k K; destruct (B k K) as [p O]; exists p; apply I, O|]. split; [|exact D]. intros k t n v K. destruct (C k t n v K) as (p & O & Q). exists p. split; [apply I, O|exact Q].
Qed.

Section PAIR.
Variable addr_of : bytes -> option bytes.
Variable peer : bytes.
Lemma nodup_mid : forall (a b : list Z) x, NoDup (a ++ x :: b) -> NoDup (a ++ b) /\ ~ In x (a ++ b).
Proof. intros a b x N. split; [eapply NoDup_remove_1, N|eapply NoDup_remove_2, N]. Qed.
Lemma get_add : forall s s' q, tidy s -> tidy s' -> (forall k p, is_open s' k p <-> is_open s k p \/ k = t_sn s + 1 /\ p = q) -> forall k p, is_open s k p -> aget Z.eqb k (t_pending s') = aget Z.eqb k (t_pending s).
Proof. intros s s' q T T' W k p O. assert (O' : is_open s' k p) by (apply W; left; exact O). apply open_get in O; [|exact T]. apply open_get in O'; [|exact T']. congruence. Qed.
Lemma get_less : forall s s' sn, tidy s -> tidy s' -> (forall k p, is_open s' k p <-> is_open s k p /\ k <> sn) -> forall k, k <> sn -> aget Z.eqb k (t_pending s') = aget Z.eqb k (t_pending s).
Proof.
  intros s s' sn T T' W k N. destruct (aget Z.eqb k (t_pending s')) as [p|] eqn:A.
  - apply open_get in A; [|exact T']. apply W in A. destruct A as [A _]. apply open_get in A; [|exact T]. rewrite A. reflexivity.
  - destruct (aget Z.eqb k (t_pending s)) as [p|] eqn:B; [|reflexivity]. apply open_get in B; [|exact T]. assert (O : is_open s' k p) by (apply W; auto). apply open_get in O; [|exact T']. congruence.
Qed.
Lemma half_sound : forall allowed x e y, sound x -> half addr_of allowed peer x e y -> sound y /\ forall d, total x d -> total y (fun n => d n + e n).
Proof.
  intros allowed x e y Sx Hf. pose proof Sx as (Ta & Tb & Ha & Hb & Ga & Gb). destruct Hf as [c Lc Al|l sn m r ok s' Eb E|l sn to n v r s' Eb E].
  - destruct (step_or addr_of (p_a x) c) as [(s' & E & R)|(A & R)]; rewrite R.
    2:{ rewrite A. unfold sent. rewrite skipn_all. cbn [for_net]. rewrite app_nil_r. destruct x as [a b ab ba]. split; [exact Sx|]. intros d Tt n. specialize (Tt n). cbn in *. lia. }
    assert (AC : accepted addr_of (p_a x) c = true) by (unfold accepted; rewrite E; reflexivity).
    pose proof (step_tidy addr_of _ c s' Ta E) as Ta'. pose proof (step_holds addr_of _ c s' Ta E Ha) as Ha'. pose proof (step_does addr_of _ c s' Ta E) as D. pose proof (fun n => step_worth addr_of _ c s' n Ta E) as W.
    assert (Cases : same_open (p_a x) s' /\ sent peer (p_a x) s' = [] \/ exists u to n v, let sn := t_sn (p_a x) + 1 in 0 <= v /\
      (forall k p, is_open s' k p <-> is_open (p_a x) k p \/ k = sn /\ p = Pend u to n v) /\ (sent peer (p_a x) s' = [(sn, JReq to n v)] \/ sent peer (p_a x) s' = [])).
    { clear W AC E Al R. destruct D; cbn [local] in Lc; try contradiction; try (left; split; [assumption|]; match goal with X : said _ _ _ |- _ => rewrite (sent_said peer _ _ _ X) end; reflexivity).
      right. exists u, (pa_contract a), n, v. cbv zeta. split; [lia|]. split; [assumption|]. match goal with X : said _ _ _ |- _ => rewrite (sent_said peer _ _ _ X) end. cbn [for_net]. destruct (bytes_eqb _ _); [left|right]; reflexivity. }
    destruct Cases as [(SO & SE)|(u & to & n & v & V & WO & SE)].
    + rewrite SE, app_nil_r. split; [split; [exact Ta'|split; [exact Tb|split; [exact Ha'|split; [exact Hb|split; [exact (good_same _ _ _ _ SO Ga)|exact Gb]]]]]|].
      intros d Tt m. specialize (Tt m). cbn [p_a p_b p_ab p_ba]. rewrite (W m), AC. rewrite (twice_ext (p_a x) s' (p_ba x) m (fun k _ => same_get _ _ Ta Ta' SO k)). lia.
    + set (sn := t_sn (p_a x) + 1) in *. assert (Fr : forall k, In k (asked (p_ab x) ++ answered (p_ba x)) -> k <> sn) by (intros k I; destruct (good_open _ _ _ Ga k I) as [p O]; pose proof (proj1 (proj2 Ta) k p O); lia).
      assert (G' : good s' (p_ab x ++ sent peer (p_a x) s') (p_ba x)).
      { destruct Ga as (G1 & G2 & G3 & G4). split; [|split; [|split]].
        - rewrite asked_app. destruct SE as [-> | ->]; cbn [asked]; [|rewrite app_nil_r; exact G1]. rewrite <- app_assoc. cbn [app]. apply (Permutation_NoDup (l := sn :: asked (p_ab x) ++ answered (p_ba x))); [apply Permutation_middle|]. constructor; [intros I; exact (Fr sn I eq_refl)|exact G1].
        - intros k K. destruct (G2 k K) as [p O]. exists p. apply WO. left. exact O.
        - intros k t m w I. apply in_app_or in I. destruct I as [I|I]; [destruct (G3 k t m w I) as (p & O & Q); exists p; split; [apply WO; left; exact O|exact Q]|]. destruct SE as [SE|SE]; rewrite SE in I; [|destruct I]. destruct I as [I|[]]. injection I as <- <- <- <-. exists (Pend u to n v). split; [apply WO; right; auto|split; reflexivity].
        - intros k m I. apply in_app_or in I. destruct I as [I|I]; [exact (G4 k m I)|]. destruct SE as [SE|SE]; rewrite SE in I; [|destruct I]. destruct I as [I|[]]. injection I as <- <-. left. eauto. }
      assert (AN : answered (p_ab x ++ sent peer (p_a x) s') = answered (p_ab x)) by (rewrite answered_app; destruct SE as [-> | ->]; cbn [answered]; apply app_nil_r).
      assert (TW : forall m, twice (p_b x) (p_ab x ++ sent peer (p_a x) s') m = twice (p_b x) (p_ab x) m) by (intros m; rewrite twice_app; destruct SE as [-> | ->]; cbn [twice]; lia).
      split; [split; [exact Ta'|split; [exact Tb|split; [exact Ha'|split; [exact Hb|split; [exact G'|]]]]]|].
      * cbn [p_a p_b p_ab p_ba]. destruct Gb as (G1 & G2 & G3 & G4). split; [rewrite AN; exact G1|]. split; [rewrite AN; exact G2|]. split; assumption.
      * intros d Tt m. specialize (Tt m). cbn [p_a p_b p_ab p_ba]. rewrite (W m), AC, TW. rewrite (twice_ext (p_a x) s' (p_ba x) m); [lia|]. intros k I. destruct (proj1 (proj2 Ga) k I) as [p O]. exact (get_add _ _ _ Ta Ta' WO k p O).
  - pose proof (step_tidy addr_of _ _ s' Ta E) as Ta'. pose proof (step_holds addr_of _ _ s' Ta E Ha) as Ha'. pose proof (step_does addr_of _ _ s' Ta E) as D. pose proof (fun n => step_worth addr_of _ _ s' n Ta E) as W.
    assert (Im : In (sn, m) (p_ba x)) by (rewrite Eb; apply in_elt). destruct (proj2 (proj2 (proj2 Gb)) sn m Im) as [(to & n & v & ->)|[code ->]].
    + (* a request *)
      destruct (proj1 (proj2 (proj2 Gb)) sn to n v Im) as (q & Oq & Qn & Qv).
      assert (SO : same_open (p_a x) s') by (inversion D; assumption).
      assert (SE : exists c, sent peer (p_a x) s' = [(sn, JRes c)] /\ forall k, brings addr_of (p_a x) (KMessage (t_bmc (p_a x)) peer sn (JReq to n v) ok) k = if c =? 0 then if bytes_eqb n k then v else 0 else 0).
      { clear W. inversion D as [| | | | |? ? ? ? ? u ? Au Rg Mv So Sd St|? ? ? ? ? u ? Au Rg Mv So Sd St| | | |]; subst; [exists 0|exists (-1)]; (split; [rewrite (sent_said peer _ _ _ Sd); cbn [for_net]; rewrite bytes_eqb_refl; reflexivity|]); intros k; cbn [brings Z.eqb]; rewrite has_name.
        - apply reg_get in Rg. destruct (kget _ (t_addr (p_a x))); [reflexivity|congruence].
        - destruct (kget _ (t_addr (p_a x))) eqn:K; [|reflexivity]. elim Rg. apply reg_get. congruence. }
      destruct SE as (c & SE & BR). rewrite SE.
      assert (A1 : answered (l ++ r) = answered (p_ba x)) by (rewrite Eb, !answered_app; reflexivity).
      assert (A2 : NoDup (asked (l ++ r) ++ sn :: answered (p_ab x))).
      { destruct Gb as (G1 & _). rewrite Eb, asked_app in G1. cbn [asked] in G1. rewrite asked_app. rewrite <- app_assoc in G1. cbn [app] in G1. rewrite <- app_assoc. eapply Permutation_NoDup; [|exact G1]. apply Permutation_app_head. apply Permutation_middle. }
      split; [split; [exact Ta'|split; [exact Tb|split; [exact Ha'|split; [exact Hb|split]]]]|].
      * cbn [p_a p_b p_ab p_ba]. apply (good_same _ _ _ _ SO). destruct Ga as (G1 & G2 & G3 & G4). split; [|split; [|split]].
        -- rewrite asked_app, A1. cbn [asked]. rewrite app_nil_r. exact G1.
        -- rewrite A1. exact G2.
        -- intros k t0 n0 v0 I. apply in_app_or in I. destruct I as [I|[I|[]]]; [exact (G3 k t0 n0 v0 I)|discriminate I].
        -- intros k m0 I. apply in_app_or in I. destruct I as [I|[I|[]]]; [exact (G4 k m0 I)|]. injection I as <- <-. right. eauto.
      * cbn [p_a p_b p_ab p_ba]. destruct Gb as (G1 & G2 & G3 & G4). split; [|split; [|split]].
        -- rewrite answered_app. cbn [answered]. eapply Permutation_NoDup; [|exact A2]. apply Permutation_app_head. apply Permutation_cons_append.
        -- intros k I. rewrite answered_app in I. apply in_app_or in I. destruct I as [I|[<-|[]]]; [exact (G2 k I)|exists q; exact Oq].
        -- intros k t0 n0 v0 I. apply (G3 k t0 n0 v0). rewrite Eb. apply in_app_or in I. apply in_or_app. destruct I as [I|I]; [left; exact I|right; right; exact I].
        -- intros k m0 I. apply (G4 k m0). rewrite Eb. apply in_app_or in I. apply in_or_app. destruct I as [I|I]; [left; exact I|right; right; exact I].
      * intros d Tt m. specialize (Tt m). cbn [p_a p_b p_ab p_ba]. rewrite (W m), BR. rewrite (twice_ext (p_a x) s' (l ++ r) m (fun k _ => same_get _ _ Ta Ta' SO k)).
        rewrite Eb, twice_app in Tt. cbn [twice] in Tt. rewrite !twice_app. cbn [twice].
        assert (OV : open_value (p_b x) sn m = if bytes_eqb n m then v else 0) by (unfold open_value; apply (open_get _ _ _ Tb) in Oq; rewrite Oq, Qn, Qv; reflexivity).
        destruct c as [|c|c]; cbn [Z.eqb] in *; rewrite ?OV; lia.
    + (* an answer *)
      assert (SE : sent peer (p_a x) s' = [] /\ exists p, is_open (p_a x) sn p /\ forall k q, is_open s' k q <-> is_open (p_a x) k q /\ k <> sn).
      { clear W. inversion D as [| | | | | | |? ? p ? ? Op Mv Ts Wo Sd St|? ? p ? ? ? Cn Op Mv Ts Wo Sd St| |]; subst; (split; [rewrite (sent_said peer _ _ _ Sd); reflexivity|exists p; split; assumption]). }
      destruct SE as (SE & p & Op & WO). rewrite SE, app_nil_r.
      assert (NN : NoDup (asked (p_ab x) ++ answered (l ++ r)) /\ ~ In sn (asked (p_ab x) ++ answered (l ++ r))).
      { destruct Ga as (G1 & _). rewrite Eb, answered_app in G1. cbn [answered] in G1. rewrite answered_app. rewrite app_assoc in G1. apply nodup_mid in G1. rewrite app_assoc. exact G1. }
      destruct NN as [N1 N2].
      assert (AS : asked (l ++ r) = asked (p_ba x)) by (rewrite Eb, !asked_app; reflexivity).
      split; [split; [exact Ta'|split; [exact Tb|split; [exact Ha'|split; [exact Hb|split]]]]|].
      * cbn [p_a p_b p_ab p_ba]. destruct Ga as (G1 & G2 & G3 & G4). split; [exact N1|]. split; [|split; [|exact G4]].
        -- intros k I. assert (Ne : k <> sn) by (intros ->; apply N2, in_or_app; right; exact I). destruct (G2 k) as [z O]; [rewrite Eb; rewrite answered_app in I |- *; cbn [answered]; apply in_app_or in I; apply in_or_app; destruct I as [I|I]; [left; exact I|right; right; exact I]|]. exists z. apply WO. auto.
        -- intros k t0 n0 v0 I. assert (Ne : k <> sn) by (intros ->; apply N2, in_or_app; left; apply in_asked; eauto). destruct (G3 k t0 n0 v0 I) as (z & O & Q). exists z. split; [apply WO; auto|exact Q].
      * cbn [p_a p_b p_ab p_ba]. destruct Gb as (G1 & G2 & G3 & G4). split; [rewrite AS; exact G1|]. split; [exact G2|]. split.
        -- intros k t0 n0 v0 I. apply (G3 k t0 n0 v0). rewrite Eb. apply in_app_or in I. apply in_or_app. destruct I as [I|I]; [left; exact I|right; right; exact I].
        -- intros k m0 I. apply (G4 k m0). rewrite Eb. apply in_app_or in I. apply in_or_app. destruct I as [I|I]; [left; exact I|right; right; exact I].
      * intros d Tt m. specialize (Tt m). cbn [p_a p_b p_ab p_ba]. rewrite (W m). rewrite (twice_ext (p_a x) s' (l ++ r) m) by (intros k I; apply (get_less _ _ sn Ta Ta' WO); intros ->; apply N2, in_or_app; right; exact I).
        rewrite Eb, twice_app in Tt. cbn [twice] in Tt. rewrite twice_app. cbn [brings]. pose proof (proj1 (open_get _ _ _ Ta) Op) as Gp.
        destruct (Z.eqb_spec code 0) as [->|Nz].
        -- rewrite (sum_open (fun p => if bytes_eqb (q_name p) m then - q_value p else 0) sn p _ (proj1 Ta) Op). unfold open_value in Tt. rewrite Gp in Tt. destruct (bytes_eqb _ _); lia.
        -- destruct code; [congruence| |]; lia.
  - pose proof (step_tidy addr_of _ _ s' Ta E) as Ta'. pose proof (step_holds addr_of _ _ s' Ta E Ha) as Ha'. pose proof (step_does addr_of _ _ s' Ta E) as D. pose proof (fun n => step_worth addr_of _ _ s' n Ta E) as W.
    assert (WO : forall k q, is_open s' k q <-> is_open (p_a x) k q /\ k <> sn) by (inversion D; assumption).
    assert (NN : NoDup (asked (l ++ r) ++ answered (p_ba x)) /\ ~ In sn (asked (l ++ r) ++ answered (p_ba x))).
    { destruct Ga as (G1 & _). rewrite Eb, asked_app in G1. cbn [asked] in G1. rewrite asked_app. rewrite <- app_assoc in G1. cbn [app] in G1. apply nodup_mid in G1. rewrite <- app_assoc. exact G1. }
    destruct NN as [N1 N2]. assert (AS : answered (l ++ r) = answered (p_ab x)) by (rewrite Eb, !answered_app; reflexivity).
    assert (IN : forall k m, In (k, m) (l ++ r) -> In (k, m) (p_ab x)) by (intros k m I; rewrite Eb; apply in_app_or in I; apply in_or_app; destruct I as [I|I]; [left; exact I|right; right; exact I]).
    split; [split; [exact Ta'|split; [exact Tb|split; [exact Ha'|split; [exact Hb|split]]]]|].
    * cbn [p_a p_b p_ab p_ba]. destruct Ga as (G1 & G2 & G3 & G4). split; [exact N1|]. split; [|split; [|intros k m I; apply (G4 k m), IN, I]].
      -- intros k I. assert (Ne : k <> sn) by (intros ->; apply N2, in_or_app; right; exact I). destruct (G2 k I) as [z O]. exists z. apply WO. auto.
      -- intros k t0 n0 v0 I. assert (Ne : k <> sn) by (intros ->; apply N2, in_or_app; left; apply in_asked; eauto). destruct (G3 k t0 n0 v0 (IN _ _ I)) as (z & O & Q). exists z. split; [apply WO; auto|exact Q].
    * cbn [p_a p_b p_ab p_ba]. destruct Gb as (G1 & G2 & G3 & G4). split; [rewrite AS; exact G1|]. split; [rewrite AS; exact G2|]. split; assumption.
    * intros d Tt m. specialize (Tt m). cbn [p_a p_b p_ab p_ba]. rewrite (W m). cbn [brings]. rewrite (twice_ext (p_a x) s' (p_ba x) m) by (intros k I; apply (get_less _ _ sn Ta Ta' WO); intros ->; apply N2, in_or_app; right; exact I).
      rewrite Eb, twice_app in Tt. cbn [twice] in Tt. rewrite twice_app. lia.
Qed.
(** Every open transfer has its message on the way *)
Lemma half_all_out : forall x e y, sound x -> half addr_of (to_net peer) peer x e y -> all_out (p_a x) (p_ab x) (p_ba x) -> all_out (p_b x) (p_ba x) (p_ab x) ->
  all_out (p_a y) (p_ab y) (p_ba y) /\ all_out (p_b y) (p_ba y) (p_ab y).
Proof.
  intros x e y Sx Hf Aa Ab. pose proof Sx as (Ta & Tb & Ha & Hb & Ga & Gb). destruct Hf as [c Lc Al|l sn m r ok s' Eb E|l sn to n v r s' Eb E]; cbn [p_a p_b p_ab p_ba].
  - destruct (step_or addr_of (p_a x) c) as [(s' & E & R)|(A & R)]; rewrite R; [|unfold sent; rewrite skipn_all; cbn [for_net]; rewrite app_nil_r; split; assumption].
    pose proof (step_does addr_of _ c s' Ta E) as D. split.
    + intros k p O. rewrite asked_app. clear E R Gb Ab. destruct D; cbn [local to_net] in *; try contradiction;
        try (match goal with X : same_open _ _ |- _ => apply X in O end; specialize (Aa k p O); apply in_app_or in Aa; apply in_or_app; destruct Aa as [Aa|Aa]; [left; apply in_or_app; left; exact Aa|right; exact Aa]).
      apply H4 in O. destruct O as [O|[-> ->]]; [specialize (Aa k p O); apply in_app_or in Aa; apply in_or_app; destruct Aa as [Aa|Aa]; [left; apply in_or_app; left; exact Aa|right; exact Aa]|].
      apply in_or_app. left. apply in_or_app. right. rewrite (sent_said peer _ _ _ H5). cbn [for_net]. rewrite (Al _ H1), bytes_eqb_refl. left. reflexivity.
    + intros k p O. specialize (Ab k p O). rewrite answered_app. apply in_app_or in Ab. apply in_or_app. destruct Ab as [Ab|Ab]; [left; exact Ab|right; apply in_or_app; left; exact Ab].
  - pose proof (step_does addr_of _ _ s' Ta E) as D. assert (Im : In (sn, m) (p_ba x)) by (rewrite Eb; apply in_elt). destruct (proj2 (proj2 (proj2 Gb)) sn m Im) as [(to & n & v & ->)|[code ->]].
    + assert (SO : same_open (p_a x) s') by (inversion D; assumption).
      assert (SE : exists c, sent peer (p_a x) s' = [(sn, JRes c)]).
      { inversion D as [| | | | |? ? ? ? ? u ? Au Rg Mv So Sd St|? ? ? ? ? u ? Au Rg Mv So Sd St| | | |]; subst; [exists 0|exists (-1)]; rewrite (sent_said peer _ _ _ Sd); cbn [for_net]; rewrite bytes_eqb_refl; reflexivity. }
      destruct SE as (c & SE). rewrite SE. split.
      * intros k p O. apply SO in O. specialize (Aa k p O). rewrite Eb, answered_app in Aa. cbn [answered] in Aa. rewrite asked_app, answered_app. cbn [asked]. rewrite app_nil_r. exact Aa.
      * intros k p O. specialize (Ab k p O). rewrite Eb, asked_app in Ab. cbn [asked] in Ab. rewrite asked_app, answered_app. cbn [answered]. rewrite !in_app_iff in *. cbn [In] in *. tauto.
    + assert (WO : forall k q, is_open s' k q <-> is_open (p_a x) k q /\ k <> sn) by (inversion D; assumption).
      assert (SE : sent peer (p_a x) s' = []) by (inversion D as [| | | | | | |? ? p ? ? Op Mv Ts Wo Sd St|? ? p ? ? ? Cn Op Mv Ts Wo Sd St| |]; subst; rewrite (sent_said peer _ _ _ Sd); reflexivity).
      rewrite SE, app_nil_r. split.
      * intros k p O. apply WO in O. destruct O as [O Ne]. specialize (Aa k p O). rewrite Eb, answered_app in Aa. cbn [answered] in Aa. rewrite answered_app. rewrite !in_app_iff in *. cbn [In] in *. destruct Aa as [Aa|[Aa|[Aa|Aa]]]; [tauto|tauto|congruence|tauto].
      * intros k p O. specialize (Ab k p O). rewrite Eb, asked_app in Ab. cbn [asked] in Ab. rewrite asked_app. exact Ab.
  - pose proof (step_does addr_of _ _ s' Ta E) as D. assert (WO : forall k q, is_open s' k q <-> is_open (p_a x) k q /\ k <> sn) by (inversion D; assumption). split.
    + intros k p O. apply WO in O. destruct O as [O Ne]. specialize (Aa k p O). rewrite Eb, asked_app in Aa. cbn [asked] in Aa. rewrite asked_app. rewrite !in_app_iff in *. cbn [In] in *. destruct Aa as [[Aa|[Aa|Aa]]|Aa]; [tauto|congruence|tauto|tauto].
    + intros k p O. specialize (Ab k p O). rewrite Eb, answered_app in Ab. cbn [answered] in Ab. rewrite answered_app. exact Ab.
Qed.
Definition above (s : tstate) : Prop := forall u n, 0 <= usable s u n.
Lemma half_above : forall allowed x e y, sound x -> half addr_of allowed peer x e y -> above (p_a x) -> above (p_a y) /\ p_b y = p_b x.
Proof.
  intros allowed x e y Sx Hf Aa. pose proof Sx as (Ta & Tb & Ha & Hb & Ga & Gb). destruct Hf as [c Lc Al|l sn m r ok s' Eb E|l sn to n v r s' Eb E]; cbn [p_a p_b]; (split; [|reflexivity]).
  - destruct (step_or addr_of (p_a x) c) as [(s' & E & R)|(A & R)]; rewrite R; [|exact Aa]. assert (G : gives c) by (destruct c; cbn [gives local] in *; try exact I; contradiction). exact (step_nonneg addr_of _ c s' Ta (step_does addr_of _ c s' Ta E) G Aa).
  - assert (G : gives (KMessage (t_bmc (p_a x)) peer sn m ok)).
    { destruct m as [to n v| | |]; cbn [gives]; try exact I. destruct (proj1 (proj2 (proj2 Gb)) sn to n v) as (q & O & _ & Q); [rewrite Eb; apply in_elt|]. pose proof (proj2 (proj1 (proj2 Tb) sn q O)). lia. }
    exact (step_nonneg addr_of _ _ s' Ta (step_does addr_of _ _ s' Ta E) G Aa).
  - exact (step_nonneg addr_of _ _ s' Ta (step_does addr_of _ _ s' Ta E) I Aa).
Qed.
End PAIR.

(** * Histories *)
Lemma start_sound : forall oa ba ob bb, sound (Pair (token_installed oa ba) (token_installed ob bb) [] []).
Proof.
  intros oa ba ob bb. split; [apply start_tidy|]. split; [apply start_tidy|]. split; [intros n; reflexivity|]. split; [intros n; reflexivity|].
  split; (split; [constructor|]; split; [intros k []|]; split; [intros k t n v []|intros k m []]).
Qed.
Section HISTORY.
Variable addr_a addr_b : bytes -> option bytes.
Variable na nb : bytes.
Lemma flip_twice : forall x, flip (flip x) = x.
Proof. intros [a b l r]. reflexivity. Qed.
Lemma history_sound : forall only x d, history addr_a addr_b na nb only x d -> sound x /\ total x d /\ above (p_a x) /\ above (p_b x).
Proof.
  intros only x d Hi. induction Hi as [oa ba ob bb|x d e y Hi IH Hf|x d e y Hi IH Hf].
  - split; [apply start_sound|]. split; [intros n; reflexivity|]. split; intros u n; apply Z.le_refl.
  - destruct IH as (S & T & A & B). destruct (half_sound _ _ _ _ _ _ S Hf) as [S' T']. destruct (half_above _ _ _ _ _ _ S Hf A) as [A' B']. split; [exact S'|]. split; [exact (T' d T)|]. split; [exact A'|rewrite B'; exact B].
  - destruct IH as (S & T & A & B). assert (Sf : sound (flip x)) by (apply flip_sound; rewrite flip_twice; exact S). assert (Tf : total (flip x) d) by (apply flip_total; rewrite flip_twice; exact T).
    destruct (half_sound _ _ _ _ _ _ Sf Hf) as [S' T']. destruct (half_above _ _ _ _ _ _ Sf Hf B) as [A' B']. split; [apply flip_sound, S'|]. split; [apply flip_total, (T' d Tf)|]. cbn [flip p_a p_b] in *. split; [rewrite B'; exact A|exact A'].
Qed.
Lemma history_all_out : forall x d, history addr_a addr_b na nb true x d -> all_out (p_a x) (p_ab x) (p_ba x) /\ all_out (p_b x) (p_ba x) (p_ab x).
Proof.
  intros x d Hi. induction Hi as [oa ba ob bb|x d e y Hi IH Hf|x d e y Hi IH Hf]; [split; intros k p []| |]; destruct IH as [A B]; destruct (history_sound _ _ _ Hi) as (S & _).
  - exact (half_all_out addr_a nb x e y S Hf A B).
  - assert (Sf : sound (flip x)) by (apply flip_sound; rewrite flip_twice; exact S). destruct (half_all_out addr_b na (flip x) e (flip y) Sf Hf B A) as [X Y]. split; assumption.
Qed.
End HISTORY.
(** What is counted twice is locked *)
Definition val_in (P : list (Z * pend)) (n : bytes) (k : Z) : Z := match aget Z.eqb k P with Some p => if bytes_eqb (q_name p) n then q_value p else 0 | None => 0 end.
Definition ssum (P : list (Z * pend)) (n : bytes) (ks : list Z) : Z := fold_right Z.add 0 (map (val_in P n) ks).
Lemma get_zdel : forall k j (P : list (Z * pend)), j <> k -> aget Z.eqb j (zdel k P) = aget Z.eqb j P.
Proof. intros k j P N. induction P as [|[y q] P IH]; [reflexivity|]. cbn [zdel aget]. destruct (Z.eqb_spec k y) as [->|]; [destruct (Z.eqb_spec j y); [congruence|exact IH]|]. cbn [aget]. rewrite IH. reflexivity. Qed.
Lemma ssum_le : forall ks P n, NoDup ks -> NoDup (map fst P) -> (forall k p, In (k, p) P -> 0 <= q_value p) -> ssum P n ks <= osum P n.
Proof.
  induction ks as [|k ks IH]; intros P n N NP V; [apply osum_nonneg, V|]. inversion N as [|? ? A B]; subst. unfold ssum. cbn [map fold_right]. fold (ssum P n ks). unfold val_in at 1. destruct (aget Z.eqb k P) as [p|] eqn:G; [|specialize (IH P n B NP V); lia].
  apply zget_in in G. pose proof (osum_zdel k p P n NP G) as O. specialize (IH (zdel k P) n B (zdel_nodup _ k P NP) (fun j q I => V j q (proj1 (proj1 (zdel_in _ k P j q) I)))).
  assert (E : ssum (zdel k P) n ks = ssum P n ks); [|lia]. unfold ssum. f_equal. apply map_ext_in. intros j J. unfold val_in. rewrite get_zdel; [reflexivity|]. intros ->. exact (A J).
Qed.
Lemma twice_le : forall s l n, tidy s -> NoDup (answered l) -> 0 <= twice s l n <= osum (t_pending s) n.
Proof.
  intros s l n T N. assert (V : forall k p, In (k, p) (t_pending s) -> 0 <= q_value p) by (intros k p I; exact (proj2 (proj1 (proj2 T) k p I))).
  assert (P : forall k, 0 <= val_in (t_pending s) n k) by (intros k; unfold val_in; destruct (aget Z.eqb k (t_pending s)) as [p|] eqn:G; [apply zget_in in G; specialize (V k p G); destruct (bytes_eqb _ _); lia|lia]).
  pose proof (ssum_le _ _ n N (proj1 T) V) as B. assert (A : 0 <= twice s l n <= ssum (t_pending s) n (answered l)); [|lia]. clear B N.
  induction l as [|[k m] l IH]; [cbn; lia|]. destruct m as [| c| |]; cbn [twice answered]; try exact IH. unfold ssum in *. cbn [map fold_right]. specialize (P k). change (open_value s k n) with (val_in (t_pending s) n k). destruct c; lia.
Qed.
Lemma free_covers : forall s n u, tidy s -> above s -> usable s u n <= free s n.
Proof.
  intros s n u T U. pose proof (proj2 (proj2 (proj2 (proj2 (proj2 (proj2 T)))))) as N. unfold above, free, usable, balance in *.
  assert (P : forall k b, In (k, b) (t_bal s) -> 0 <= fst b) by (intros [x m] b I; pose proof (aget_unique _ keq (x, m) b _ N I) as G; specialize (U x m); rewrite G in U; exact U).
  clear U T. assert (Q : forall l, (forall k b, In (k, b) l -> 0 <= fst b) -> 0 <= free_of l n) by (clear; induction l as [|[k b] l IH]; intros P; cbn [free_of]; [lia|]; pose proof (P k b (or_introl eq_refl)); specialize (IH (fun k b I => P k b (or_intror I))); destruct (bytes_eqb _ _); lia).
  induction (t_bal s) as [|[[x m] b] l IH]; [cbn; lia|]. cbn [map fst] in N. inversion N as [|? ? A B]; subst. specialize (IH B (fun k b I => P k b (or_intror I))). pose proof (P (x, m) b (or_introl eq_refl)) as P1. pose proof (Q l (fun k b I => P k b (or_intror I))) as Q1. cbn [aget free_of snd].
  destruct (kspec (u, n) (x, m)) as [E|E]; [injection E as -> ->; rewrite bytes_eqb_refl; lia|]. destruct (bytes_eqb m n); lia.
Qed.
Lemma nodup_right : forall (a b : list Z), NoDup (a ++ b) -> NoDup b.
Proof. induction a as [|x a IH]; intros b N; [exact N|]. inversion N; subst. apply IH. assumption. Qed.
