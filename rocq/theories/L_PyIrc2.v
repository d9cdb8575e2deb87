From Coq Require Import String Ascii ZArith List Bool Lia.
From Coq Require Import ZifyBool.
From Verif Require Import Base L_Base GoStr M_JMap M_PyBmv M_PyBmc M_PyToken S_PyToken M_PyIrc2 S_PyIrc2 L_JMap L_PyToken.
Import ListNotations.
Open Scope Z_scope.
Local Notation bytes := (list Z).

Lemma tbal_put : forall tb k v u, tbal (kput k v tb) u = if bytes_eqb u k then v else tbal tb u.
Proof.
  intros tb k v u. unfold tbal, kput, kget. destruct (bytes_eqb_spec u k) as [->|N]; [rewrite (aput_same _ bytes_eqb_eq); reflexivity|rewrite (aput_other _ bytes_eqb_eq) by exact N; reflexivity].
Qed.
Lemma supply_put : forall tb k v, NoDup (map fst tb) -> supply (kput k v tb) = supply tb - tbal tb k + v.
Proof.
  intros tb k v. unfold tbal, kput, kget. induction tb as [|[x y] tb IH]; intros N; [cbn; lia|]. cbn [map fst] in N. inversion N as [|? ? A B]; subst. cbn [aput aget]. destruct (bytes_eqb_spec k x) as [->|X]; cbn [supply]; [lia|]. rewrite (IH B). lia.
Qed.
Lemma move_fair : forall tb f t v tb', fair tb -> move_tokens tb f t v = Some tb' ->
  fair tb' /\ supply tb' = supply tb /\ 0 <= v <= tbal tb f /\ forall u, tbal tb' u = tbal tb u - (if bytes_eqb u f then v else 0) + (if bytes_eqb u t then v else 0).
Proof.
  intros tb f t v tb' (N & P) E. unfold move_tokens in E. destruct (Z.ltb_spec v 0); [discriminate E|]. destruct (Z.ltb_spec (tbal tb f) v); [discriminate E|]. cbv zeta in E.
  set (tb1 := kput f (tbal tb f - v) tb) in E. assert (E' : tb' = kput t (tbal tb1 t + v) tb1) by congruence. clear E. subst tb'.
  assert (N1 : NoDup (map fst tb1)) by (apply aput_nodup; [exact bytes_eqb_eq|exact N]).
  assert (B : forall u, tbal (kput t (tbal tb1 t + v) tb1) u = tbal tb u - (if bytes_eqb u f then v else 0) + (if bytes_eqb u t then v else 0)).
  { intros u. rewrite tbal_put. unfold tb1. rewrite !tbal_put. destruct (bytes_eqb_spec u t) as [->|]; [destruct (bytes_eqb_spec t f) as [->|]; lia|]. destruct (bytes_eqb_spec u f) as [->|]; lia. }
  split; [split; [apply aput_nodup; [exact bytes_eqb_eq|exact N1]|]|].
  - intros u. rewrite B. specialize (P u). destruct (bytes_eqb u t); destruct (bytes_eqb_spec u f) as [->|]; lia.
  - split; [|split; [lia|exact B]]. rewrite (supply_put tb1 t _ N1). unfold tb1. rewrite (supply_put tb f _ N). lia.
Qed.
Section TRUN.
Variable addr_of : bytes -> option bytes.
Lemma trun_app : forall s a b, trun addr_of s (a ++ b) = trun addr_of (trun addr_of s a) b.
Proof. intros. apply fold_left_app. Qed.
Lemma came_app : forall a s b t, came addr_of s (a ++ b) t = came addr_of s a t + came addr_of (trun addr_of s a) b t.
Proof. induction a as [|c a IH]; intros s b t; [reflexivity|]. cbn [came app trun fold_left]. rewrite IH. unfold trun. lia. Qed.
End TRUN.
Section WORLD.
Variable addr_of : bytes -> option bytes.
Variables tk bs : bytes.
Variable is_contract : bytes -> bool.
Variable Q : tcall -> Prop.
Hypothesis bsc : is_contract bs = true.
Hypothesis Qf : forall f v, Q (KFallback tk f v).
Hypothesis Qr : forall u n v ok, Q (KReclaim u n v ok).
(** From [w] to [w'] the service did the calls [cs], and the token holds for it what they say *)
Definition goes (w w' : world) (cs : list tcall) : Prop :=
  w_bsh w' = trun addr_of (w_bsh w) cs /\ Forall Q cs /\ fair (w_tok w') /\ supply (w_tok w') = supply (w_tok w) /\
  tbal (w_tok w') bs = tbal (w_tok w) bs + came addr_of (w_bsh w) cs tk - (paid (t_out (w_bsh w')) tk - paid (t_out (w_bsh w)) tk).
Lemma goes_nil : forall w, fair (w_tok w) -> goes w w [].
Proof. intros w F. split; [reflexivity|]. split; [constructor|]. split; [exact F|]. split; [reflexivity|]. cbn [came]. lia. Qed.
Lemma goes_app : forall w w1 w2 a b, goes w w1 a -> goes w1 w2 b -> goes w w2 (a ++ b).
Proof.
  intros w w1 w2 a b (A1 & A2 & A3 & A4 & A5) (B1 & B2 & B3 & B4 & B5). split; [rewrite trun_app, <- A1; exact B1|]. split; [apply Forall_app; split; assumption|]. split; [exact B3|]. split; [congruence|]. rewrite came_app, <- A1. lia.
Qed.
Lemma act_ind2 : forall P : act -> Prop, (forall f t v l ok, Forall P l -> P (ASend f t v l ok)) -> (forall u n v l ok, Forall P l -> P (AReclaim u n v l ok)) -> (forall c, P (ACall c)) -> forall a, P a.
Proof.
  intros P A B C. fix IH 1. intros [f t v l ok|u n v l ok|c]; [apply A|apply B|apply C]; induction l as [|x l IL]; constructor; try apply IH; exact IL.
Qed.
Fixpoint runs (l : list act) (w : world) : world := match l with [] => w | x :: r => runs r (match exec addr_of tk bs is_contract x w with Val w' => w' | Raise _ => w end) end.
Lemma exec_send : forall f t v l ok w, exec addr_of tk bs is_contract (ASend f t v l ok) w = irc2_transfer tk bs is_contract (runs l) ok w f t v.
Proof. reflexivity. Qed.
Lemma exec_reclaim : forall u n v l ok w, exec addr_of tk bs is_contract (AReclaim u n v l ok) w =
  bind (t_reclaim (w_bsh w) u n v true) (fun s => match kget n (t_addr (w_bsh w)) with
      | Some a => if bytes_eqb a tk then irc2_transfer tk bs is_contract (runs l) ok (World (w_tok w) s) bs u v else if ok then Val (runs l (World (w_tok w) s)) else Raise XOther
      | None => Raise XOther end).
Proof. reflexivity. Qed.
Definition follows (a : act) : Prop := forall w w', fair (w_tok w) -> proper tk bs Q a -> exec addr_of tk bs is_contract a w = Val w' -> exists cs, goes w w' cs.
Lemma runs_goes : forall l, Forall follows l -> Forall (proper tk bs Q) l -> forall w, fair (w_tok w) -> exists cs, goes w (runs l w) cs.
Proof.
  induction l as [|x l IH]; intros F P w Fw; [exists []; apply goes_nil, Fw|]. inversion F as [|? ? F1 F2]; subst. inversion P as [|? ? P1 P2]; subst. cbn [runs]. destruct (exec addr_of tk bs is_contract x w) as [w1|e] eqn:E; [|apply IH; assumption].
  destruct (F1 w w1 Fw P1 E) as (a & G). destruct (IH F2 P2 w1) as (b & G'); [apply G|]. exists (a ++ b). exact (goes_app _ _ _ _ _ G G').
Qed.
Lemma reclaim_one : forall s u n v s', t_reclaim s u n v true = Val s' -> trun addr_of s [KReclaim u n v true] = s' /\ exists a, kget n (t_addr s) = Some a /\ t_out s' = t_out s ++ [TPay a u v] /\ 0 <= v.
Proof.
  intros s u n v s' E. unfold trun, tstep. cbn [fold_left tcall_result]. rewrite E. split; [reflexivity|]. unfold t_reclaim in E. destruct (Z.ltb_spec v 0); [discriminate E|]. destruct (kget n (t_addr s)) as [a|]; [|discriminate E]. destruct (_ <? v); [discriminate E|]. exists a. split; [reflexivity|]. split; [|lia].
  assert (E' : s' = tell (update s u n (- v) 0) (TPay a u v)) by congruence. subst s'. reflexivity.
Qed.
Lemma call_paid : forall c s s' t, outside tk c -> tcall_result addr_of s c = Val s' -> paid (t_out s') t = paid (t_out s) t.
Proof.
  intros c s s' t O E. destruct c as [x n a|x n|x f v|x n v ok|x n to v ok|x net sn m ok|x sn]; cbn [tcall_result outside] in *.
  - unfold t_register in E. destruct (negb _); [discriminate E|]. destruct (kget n (t_addr s)); [discriminate E|]. injection E as <-. reflexivity.
  - unfold t_unregister in E. destruct (negb _); [discriminate E|]. destruct (kget n (t_addr s)); [|discriminate E]. injection E as <-. reflexivity.
  - unfold t_fallback in E. destruct (v <? 0); [discriminate E|]. destruct (name_of s x) as [[|ch n]|]; try discriminate E. assert (E' : s' = update s f (ch :: n) v 0) by congruence. subst s'. reflexivity.
  - contradiction.
  - unfold t_transfer in E. destruct (kget n (t_addr s)) as [a|]; [|discriminate E]. destruct (v <? 0); [discriminate E|]. destruct (valid_address to) as [p|[|]]; try discriminate E. destruct (_ <? v); [discriminate E|]. unfold t_send in E. destruct ok; [|discriminate E]. cbn [bind] in E. injection E as <-. cbn [tell t_out with_pending update with_bal]. rewrite !paid_app. cbn [paid]. lia.
  - unfold t_message in E. destruct (negb _); [discriminate E|]. destruct m as [to n v|code|type|]; [| | |discriminate E].
    + destruct (addr_of to) as [u|]; [|discriminate E]. cbn [need bind] in E. unfold t_send in E. destruct (kget n (t_addr s)) as [a|]; (destruct ok; [|discriminate E]); injection E as <-; cbn [tell t_out update with_bal]; rewrite paid_app; cbn [paid]; lia.
    + destruct (aget Z.eqb sn (t_pending s)) as [p|]; [|discriminate E]. destruct (code =? 0); injection E as <-; cbn [tell t_out with_pending update with_bal]; rewrite paid_app; cbn [paid]; lia.
    + unfold t_send in E. destruct ok; [|discriminate E]. injection E as <-. cbn [tell t_out]. rewrite paid_app. cbn [paid]. lia.
  - unfold t_error in E. destruct (negb _); [discriminate E|]. destruct (aget Z.eqb sn (t_pending s)) as [p|]; [|discriminate E]. injection E as <-. reflexivity.
Qed.
Lemma exec_goes : forall a, follows a.
Proof.
  apply act_ind2.
  - intros f t v l ok IL w w' Fw Pr E. inversion Pr as [? ? ? ? ? Nf Pl| |]; subst. rewrite exec_send in E. unfold irc2_transfer in E. destruct (move_tokens (w_tok w) f t v) as [tb|] eqn:M; [|discriminate E]. destruct (move_fair _ _ _ _ _ Fw M) as (F' & S' & V & B).
    assert (Bs : tbal tb bs = tbal (w_tok w) bs + (if bytes_eqb bs t then v else 0)) by (rewrite B; destruct (bytes_eqb_spec bs f); [congruence|lia]).
    assert (G0 : t <> bs -> goes w (World tb (w_bsh w)) []).
    { intros Nt. split; [reflexivity|]. split; [constructor|]. split; [exact F'|]. split; [exact S'|]. cbn [w_tok w_bsh came]. rewrite Bs. destruct (bytes_eqb_spec bs t); [congruence|lia]. }
    destruct (is_contract t) eqn:Ct.
    + destruct (bytes_eqb_spec t bs) as [->|Nt].
      * destruct (t_fallback (w_bsh w) tk f v) as [s|] eqn:T; [|discriminate E]. cbn [bind] in E. injection E as <-. exists [KFallback tk f v]. split; [|split; [constructor; [apply Qf|constructor]|split; [exact F'|split; [exact S'|]]]].
        -- unfold trun, tstep. cbn [fold_left tcall_result w_bsh]. rewrite T. reflexivity.
        -- cbn [w_tok w_bsh came]. unfold accepted. cbn [tcall_result]. rewrite T, bytes_eqb_refl. cbn [andb]. rewrite Bs, bytes_eqb_refl.
           unfold t_fallback in T. destruct (v <? 0); [discriminate T|]. destruct (name_of (w_bsh w) tk) as [[|ch n]|]; try discriminate T. assert (T' : s = update (w_bsh w) f (ch :: n) v 0) by congruence. subst s. cbn [update with_bal t_out]. lia.
      * destruct ok; [|discriminate E]. assert (E' : w' = runs l (World tb (w_bsh w))) by congruence. clear E. subst w'. destruct (runs_goes l IL Pl (World tb (w_bsh w)) F') as (cs & G). exists ([] ++ cs). exact (goes_app _ _ _ _ _ (G0 Nt) G).
    + assert (E' : w' = World tb (w_bsh w)) by congruence. subst w'. exists []. apply G0. intros ->. congruence.
  - intros u n v l ok IL w w' Fw Pr E. inversion Pr as [|? ? ? ? ? Nu Pl|]; subst. rewrite exec_reclaim in E. destruct (t_reclaim (w_bsh w) u n v true) as [s|] eqn:T; [|discriminate E]. cbn [bind] in E. destruct (reclaim_one _ _ _ _ _ T) as (Tr & a & K & Out & V). rewrite K in E.
    destruct (bytes_eqb_spec a tk) as [Ea|Na]; [rewrite Ea in *|].
    + unfold irc2_transfer in E. cbn [w_tok w_bsh] in E. destruct (move_tokens (w_tok w) bs u v) as [tb|] eqn:M; [|discriminate E]. destruct (move_fair _ _ _ _ _ Fw M) as (F' & S' & V' & B).
      assert (G0 : goes w (World tb s) [KReclaim u n v true]).
      { split; [symmetry; exact Tr|]. split; [constructor; [apply Qr|constructor]|]. split; [exact F'|]. split; [exact S'|]. cbn [w_tok w_bsh came]. rewrite B, bytes_eqb_refl, Out, paid_app. cbn [paid]. rewrite bytes_eqb_refl. destruct (bytes_eqb_spec bs u); [congruence|]. lia. }
      destruct (is_contract u).
      * destruct (bytes_eqb_spec u bs) as [|_]; [contradiction|]. destruct ok; [|discriminate E]. assert (E' : w' = runs l (World tb s)) by congruence. clear E. subst w'. destruct (runs_goes l IL Pl (World tb s) F') as (cs & G). exists ([KReclaim u n v true] ++ cs). exact (goes_app _ _ _ _ _ G0 G).
      * assert (E' : w' = World tb s) by congruence. subst w'. exists [KReclaim u n v true]. exact G0.
    + assert (G0 : goes w (World (w_tok w) s) [KReclaim u n v true]).
      { split; [symmetry; exact Tr|]. split; [constructor; [apply Qr|constructor]|]. split; [exact Fw|]. split; [reflexivity|]. cbn [w_tok w_bsh came]. rewrite Out, paid_app. cbn [paid]. destruct (bytes_eqb_spec a tk); [contradiction|]. lia. }
      destruct ok; [|discriminate E]. assert (E' : w' = runs l (World (w_tok w) s)) by congruence. clear E. subst w'. destruct (runs_goes l IL Pl (World (w_tok w) s) Fw) as (cs & G). exists ([KReclaim u n v true] ++ cs). exact (goes_app _ _ _ _ _ G0 G).
  - intros c w w' Fw Pr E. inversion Pr as [| |? Oc Qc]; subst. cbn [exec] in E. destruct (tcall_result addr_of (w_bsh w) c) as [s|] eqn:T; [|discriminate E]. cbn [bind] in E. injection E as <-. exists [c]. split; [|split; [constructor; [exact Qc|constructor]|split; [exact Fw|split; [reflexivity|]]]].
    + unfold trun, tstep. cbn [fold_left w_bsh]. rewrite T. reflexivity.
    + cbn [w_tok w_bsh came]. rewrite (call_paid c _ _ tk Oc T). destruct c as [| |x f v| | | |]; try lia. cbn [outside] in Oc. destruct (bytes_eqb_spec x tk); [contradiction|]. cbn [andb]. lia.
Qed.
Lemma wrun_goes : forall l w, fair (w_tok w) -> Forall (proper tk bs Q) l -> exists cs, goes w (wrun addr_of tk bs is_contract w l) cs.
Proof.
  induction l as [|a l IH]; intros w F P; [exists []; apply goes_nil, F|]. inversion P as [|? ? P1 P2]; subst. cbn [wrun fold_left]. unfold wstep at 2. destruct (exec addr_of tk bs is_contract a w) as [w1|] eqn:E; [|exact (IH w F P2)].
  destruct (exec_goes a w w1 F P1 E) as (x & G). destruct (IH w1) as (y & G'); [apply G|exact P2|]. exists (x ++ y). exact (goes_app _ _ _ _ _ G G').
Qed.
End WORLD.
Lemma usable_after : forall s u n d y m, fst (balance (update s u n d 0) y m) = fst (balance s y m) + (if bytes_eqb y u && bytes_eqb m n then d else 0).
Proof.
  intros s u n d y m. rewrite bal_update. unfold key_eqb. cbn [fst snd]. destruct (bytes_eqb_spec y u) as [->|]; cbn [andb]; [|lia]. destruct (bytes_eqb_spec m n) as [->|]; cbn [fst]; lia.
Qed.
Lemma wt_nonneg : forall l s a, (forall m, 0 <= worth s m) -> 0 <= worth_token l s a.
Proof. induction l as [|[m b] l IH]; intros s a P; cbn [worth_token]; [lia|]. specialize (IH s a P). specialize (P m). destruct (bytes_eqb b a); lia. Qed.
