(** Theorems about two token services of the Python contracts that send each other tokens (pyscore/token/token_bsh.py, M_PyPair). *)
From Coq Require Import String Ascii ZArith List Bool Lia.
From Coq Require Import ZifyBool.
From Verif Require Import Base L_Base GoStr M_JMap M_PyBmv M_PyBmc M_PyToken S_PyToken M_PyPair S_PyPair L_JMap L_PyToken L_PyPair.
Import ListNotations.
Open Scope Z_scope.
Local Notation bytes := (list Z).

(** Whatever is called and in whatever order messages arrive: both contracts together have of every name what deposits and reclaims brought,
    but that a delivered transfer is still locked at its sender until the answer is back *)
Theorem C106_conserved : forall addr_a addr_b na nb only x d, history addr_a addr_b na nb only x d -> forall n,
  worth (p_a x) n + worth (p_b x) n = d n + twice (p_a x) (p_ba x) n + twice (p_b x) (p_ab x) n.
Proof. intros addr_a addr_b na nb only x d Hi n. apply (history_sound _ _ _ _ _ _ _ Hi). Qed.
Print Assumptions C106_conserved.
(** Nothing is made out of nothing: what the users of both contracts can use of a name is never more than was deposited less what was reclaimed, so neither is what one of them can *)
Theorem C106_not_more : forall addr_a addr_b na nb only x d, history addr_a addr_b na nb only x d -> forall n,
  free (p_a x) n + free (p_b x) n <= d n /\ (forall u, 0 <= usable (p_a x) u n <= d n) /\ (forall u, 0 <= usable (p_b x) u n <= d n).
Proof.
  intros addr_a addr_b na nb only x d Hi n. destruct (history_sound _ _ _ _ _ _ _ Hi) as (S & T & A & B). destruct S as (Ta & Tb & Ha & Hb & Ga & Gb). specialize (T n). rewrite !worth_parts, (Ha n), (Hb n) in T.
  assert (Na : NoDup (answered (p_ba x))) by (exact (nodup_right _ _ (proj1 Ga))). assert (Nb : NoDup (answered (p_ab x))) by (exact (nodup_right _ _ (proj1 Gb))).
  pose proof (twice_le _ _ n Ta Na) as La. pose proof (twice_le _ _ n Tb Nb) as Lb.
  assert (Fa : forall u, usable (p_a x) u n <= free (p_a x) n) by (intros u; apply free_covers; assumption). assert (Fb : forall u, usable (p_b x) u n <= free (p_b x) n) by (intros u; apply free_covers; assumption).
  split; [lia|]. split; intros u; specialize (Fa []) as Fa0; specialize (Fb []) as Fb0; specialize (Fa u); specialize (Fb u); pose proof (A u n); pose proof (B u n); lia.
Qed.
Print Assumptions C106_not_more.
(** While transfers go between the two, each open transfer is on the way exactly once, as a request or as an answer: none is lost or answered twice *)
Theorem C106_on_the_way : forall addr_a addr_b na nb x d, history addr_a addr_b na nb true x d ->
  NoDup (asked (p_ab x) ++ answered (p_ba x)) /\ NoDup (asked (p_ba x) ++ answered (p_ab x)) /\
  (forall k, In k (asked (p_ab x) ++ answered (p_ba x)) <-> exists p, is_open (p_a x) k p) /\ (forall k, In k (asked (p_ba x) ++ answered (p_ab x)) <-> exists p, is_open (p_b x) k p).
Proof.
  intros addr_a addr_b na nb x d Hi. destruct (history_sound _ _ _ _ _ _ _ Hi) as (S & _). destruct S as (Ta & Tb & Ha & Hb & Ga & Gb). destruct (history_all_out _ _ _ _ _ _ Hi) as [Oa Ob].
  split; [apply Ga|]. split; [apply Gb|]. split; intros k; (split; [apply good_open; assumption|]); intros [p O]; [exact (Oa k p O)|exact (Ob k p O)].
Qed.
Print Assumptions C106_on_the_way.
(** Once all messages have arrived nothing is locked, and the users can use exactly what was deposited less what was reclaimed *)
Theorem C106_settled : forall addr_a addr_b na nb x d, history addr_a addr_b na nb true x d -> p_ab x = [] -> p_ba x = [] -> forall n,
  free (p_a x) n + free (p_b x) n = d n /\ (forall u, locked (p_a x) u n = 0 /\ locked (p_b x) u n = 0).
Proof.
  intros addr_a addr_b na nb x d Hi Eab Eba n. destruct (history_sound _ _ _ _ _ _ _ Hi) as (S & T & _). destruct S as (Ta & Tb & Ha & Hb & Ga & Gb). destruct (history_all_out _ _ _ _ _ _ Hi) as [Oa Ob].
  rewrite Eab, Eba in Oa, Ob. assert (Pa : t_pending (p_a x) = []) by (unfold all_out, is_open in Oa; destruct (t_pending (p_a x)) as [|[k p] l]; [reflexivity|]; destruct (Oa k p (or_introl eq_refl))). assert (Pb : t_pending (p_b x) = []) by (unfold all_out, is_open in Ob; destruct (t_pending (p_b x)) as [|[k p] l]; [reflexivity|]; destruct (Ob k p (or_introl eq_refl))).
  specialize (T n). rewrite !worth_parts, (Ha n), (Hb n), Eab, Eba, Pa, Pb in T. cbn [osum twice] in T. split; [lia|].
  assert (L : locks (p_a x) /\ locks (p_b x)).
  { clear -Hi. induction Hi as [oa ba ob bb|x d e y Hi IH Hf|x d e y Hi IH Hf]; [split; intros u n; reflexivity| |]; destruct IH as [La Lb]; destruct (history_sound _ _ _ _ _ _ _ Hi) as ((Ta & Tb & _) & _).
    - inversion Hf as [c Lc Al|l sn m r ok s' Eb E|l sn to n v r s' Eb E]; subst; cbn [p_a p_b]; (split; [|exact Lb]).
      + destruct (step_or addr_a (p_a x) c) as [(s' & E & R)|(_ & R)]; rewrite R; [|exact La]. exact (step_locks addr_a _ c s' Ta (step_tidy addr_a _ c s' Ta E) (step_does addr_a _ c s' Ta E) La).
      + exact (step_locks addr_a _ _ s' Ta (step_tidy addr_a _ _ s' Ta E) (step_does addr_a _ _ s' Ta E) La).
      + exact (step_locks addr_a _ _ s' Ta (step_tidy addr_a _ _ s' Ta E) (step_does addr_a _ _ s' Ta E) La).
    - destruct y as [ya yb yab yba]. cbn [flip p_a p_b] in *. inversion Hf as [c Lc Al|l sn m r ok s' Eb E|l sn to n v r s' Eb E]; subst; cbn [flip p_a p_b] in *; (split; [exact La|]).
      + destruct (step_or addr_b (p_b x) c) as [(s' & E & R)|(_ & R)]; rewrite R; [|exact Lb]. exact (step_locks addr_b _ c s' Tb (step_tidy addr_b _ c s' Tb E) (step_does addr_b _ c s' Tb E) Lb).
      + exact (step_locks addr_b _ _ _ Tb (step_tidy addr_b _ _ _ Tb E) (step_does addr_b _ _ _ Tb E) Lb).
      + exact (step_locks addr_b _ _ _ Tb (step_tidy addr_b _ _ _ Tb E) (step_does addr_b _ _ _ Tb E) Lb). }
  intros u. rewrite (proj1 L u n), (proj2 L u n), Pa, Pb. split; reflexivity.
Qed.
Print Assumptions C106_settled.

(** * Examples *)
Local Definition ao (x : bytes) : option bytes := match x with 104 :: 120 :: _ => Some x | _ => None end.
Local Definition own : bytes := str "hx0".
Local Definition ctr : bytes := str "cx1".
Local Definition tok : bytes := str "cx22".
Local Definition ua : bytes := str "hxa".
Local Definition ub : bytes := str "hxb".
Local Definition na : bytes := str "0x1.icon".
Local Definition nb : bytes := str "0x2.icon".
Local Definition nm : bytes := str "T".
Local Definition H := history ao ao na nb true.
Local Definition a_call (x : pair) (c : tcall) : pair := Pair (tstep ao (p_a x) c) (p_b x) (p_ab x ++ sent nb (p_a x) (tstep ao (p_a x) c)) (p_ba x).
Local Definition b_call (x : pair) (c : tcall) : pair := flip (Pair (tstep ao (p_b x) c) (p_a x) (p_ba x ++ sent na (p_b x) (tstep ao (p_b x) c)) (p_ab x)).
Local Definition b_take (x : pair) : pair := match p_ab x with
  | (sn, m) :: r => let s' := tstep ao (p_b x) (KMessage (t_bmc (p_b x)) na sn m true) in flip (Pair s' (p_a x) (p_ba x ++ sent na (p_b x) s') r) | [] => x end.
Local Definition a_take (x : pair) : pair := match p_ba x with
  | (sn, m) :: r => let s' := tstep ao (p_a x) (KMessage (t_bmc (p_a x)) nb sn m true) in Pair s' (p_b x) (p_ab x ++ sent nb (p_a x) s') r | [] => x end.
Local Definition gain (s : tstate) (c : tcall) (n : bytes) : Z := if accepted ao s c then brings ao s c n else 0.
Lemma H_a : forall x d c, local c -> to_net nb c -> H x d -> H (a_call x c) (fun n => d n + gain (p_a x) c n).
Proof. intros x d c L T Hi. eapply Hi_a; [exact Hi|]. exact (H_call ao (to_net nb) nb x c L T). Qed.
Lemma H_b : forall x d c, local c -> to_net na c -> H x d -> H (b_call x c) (fun n => d n + gain (p_b x) c n).
Proof. intros x d c L T Hi. eapply Hi_b; [exact Hi|]. exact (H_call ao (to_net na) na (flip x) c L T). Qed.
Lemma H_bt : forall x d sn m r, p_ab x = (sn, m) :: r -> accepted ao (p_b x) (KMessage (t_bmc (p_b x)) na sn m true) = true -> H x d -> H (b_take x) (fun n => d n + 0).
Proof.
  intros x d sn m r E A Hi. eapply Hi_b; [exact Hi|]. unfold b_take. rewrite E. unfold accepted in A. unfold tstep. destruct (tcall_result ao (p_b x) _) as [s'|] eqn:R; [|discriminate A]. exact (H_take ao (to_net na) na (flip x) [] sn m r true s' E R).
Qed.
Lemma H_at : forall x d sn m r, p_ba x = (sn, m) :: r -> accepted ao (p_a x) (KMessage (t_bmc (p_a x)) nb sn m true) = true -> H x d -> H (a_take x) (fun n => d n + 0).
Proof.
  intros x d sn m r E A Hi. eapply Hi_a; [exact Hi|]. unfold a_take. rewrite E. unfold accepted in A. unfold tstep. destruct (tcall_result ao (p_a x) _) as [s'|] eqn:R; [|discriminate A]. exact (H_take ao (to_net nb) nb x [] sn m r true s' E R).
Qed.
Local Definition x0 := Pair (token_installed own ctr) (token_installed own ctr) [] [].
Local Definition x1 := a_call (b_call (a_call x0 (KRegister own nm tok)) (KRegister own nm tok)) (KFallback tok ua 100).
Local Definition x2 := a_call x1 (KTransfer ua nm (str "btp://0x2.icon/hxb") 30 true).
Local Definition x3 := b_take x2.
Local Definition x4 := a_take x3.
Lemma addr_far : forall a, valid_address (str "btp://0x2.icon/hxb") = Val a -> pa_net a = nb.
Proof. intros a E. vm_compute in E. injection E as <-. reflexivity. Qed.
(** Before, while and after 30 of 100 are sent to the other contract *)
Example C106_ex_way : exists d2 d3 d4, H x2 d2 /\ H x3 d3 /\ H x4 d4 /\
  (d2 nm = 100 /\ free (p_a x2) nm = 70 /\ free (p_b x2) nm = 0 /\ asked (p_ab x2) = [1] /\ twice (p_a x2) (p_ba x2) nm = 0) /\
  (d3 nm = 100 /\ worth (p_a x3) nm = 100 /\ worth (p_b x3) nm = 30 /\ answered (p_ba x3) = [1] /\ twice (p_a x3) (p_ba x3) nm = 30) /\
  (d4 nm = 100 /\ free (p_a x4) nm = 70 /\ free (p_b x4) nm = 30 /\ p_ab x4 = [] /\ p_ba x4 = []).
Proof.
  pose proof (Hi_start ao ao na nb true own ctr own ctr) as A0. apply (H_a _ _ (KRegister own nm tok) I I) in A0. apply (H_b _ _ (KRegister own nm tok) I I) in A0. apply (H_a _ _ (KFallback tok ua 100) I I) in A0.
  pose proof (H_a _ _ (KTransfer ua nm (str "btp://0x2.icon/hxb") 30 true) I addr_far A0) as A2. pose proof (H_bt x2 _ 1 (JReq ub nm 30) [] ltac:(vm_compute; reflexivity) ltac:(vm_compute; reflexivity) A2) as A3.
  pose proof (H_at x3 _ 1 (JRes 0) [] ltac:(vm_compute; reflexivity) ltac:(vm_compute; reflexivity) A3) as A4.
  eexists. eexists. eexists. split; [exact A2|]. split; [exact A3|]. split; [exact A4|]. vm_compute. repeat split; reflexivity.
Qed.
(** The sum says nothing about one of them: what was deposited at the first can be used at the second, where nothing came in to pay for it *)
Theorem C106_covered_there_refuted : exists x d, H x d /\ usable (p_b x) ub nm = 30 /\ kget nm (t_addr (p_b x)) = Some tok /\ t_out (p_b x) = [TSend 1 na (JRes 0)] /\
  accepted ao (p_b x) (KReclaim ub nm 30 true) = true /\ worth (p_b x) nm = 30 /\ brings ao (p_b x) (KReclaim ub nm 30 true) nm = -30.
Proof. destruct C106_ex_way as (_ & _ & d & _ & _ & A & _). exists x4, d. split; [exact A|]. vm_compute. repeat split; reflexivity. Qed.
Print Assumptions C106_covered_there_refuted.
(** A transfer to a third network stays locked when nobody answers: nothing in the contract ends it *)
Theorem C106_third_network_refuted : exists x d, history ao ao na nb false x d /\ locked (p_a x) ua nm = 30 /\ p_ab x = [] /\ p_ba x = [] /\ d nm = 100 /\ free (p_a x) nm + free (p_b x) nm = 70.
Proof.
  assert (S : forall x d c, local c -> history ao ao na nb false x d -> history ao ao na nb false (a_call x c) (fun n => d n + gain (p_a x) c n)) by (intros x d c L Hi; eapply Hi_a; [exact Hi|exact (H_call ao (allow false nb) nb x c L I)]).
  pose proof (Hi_start ao ao na nb false own ctr own ctr) as A0. apply (S _ _ (KRegister own nm tok) I) in A0. apply (S _ _ (KFallback tok ua 100) I) in A0. apply (S _ _ (KTransfer ua nm (str "btp://0x3.icon/hxb") 30 true) I) in A0.
  eexists. eexists. split; [exact A0|]. vm_compute. repeat split; reflexivity.
Qed.
Print Assumptions C106_third_network_refuted.
