(** Lemmas about many message centers: links, and the invariant of the whole. *)
From Coq Require Import String Ascii ZArith List Bool Lia Permutation.
From Coq Require Import ZifyBool.
From Verif Require Import Base L_Base M_JMap L_JMap L_JSum M_JBmc S_JBmc L_JBmc T_JBmc T_JBmc2 X_JBmc T_JBmc3 L_NetW M_Net S_Net L_Net.
Import ListNotations.
Open Scope Z_scope.

Lemma sent_msgs_app : forall a x y, sent_msgs a (x ++ y) = sent_msgs a x ++ sent_msgs a y.
Proof. intros a x y. induction x as [|o x IH]; [reflexivity|]. cbn [app sent_msgs]. destruct o; try exact IH. destruct (addr_eqb a next); [cbn [app]; f_equal|]; exact IH. Qed.
Lemma sent_msgs_in : forall a m os, In m (sent_msgs a os) -> exists nid seq, In (OSent a nid seq m) os.
Proof.
  intros a m os. induction os as [|o os IH]; intros HI; [destruct HI|]. cbn [sent_msgs] in HI.
  assert (HR : In m (sent_msgs a os) -> exists nid seq, In (OSent a nid seq m) (o :: os)) by (intros H; destruct (IH H) as (nid & seq & HX); exists nid, seq; right; exact HX).
  destruct o; try (apply HR, HI). destruct (addr_eqb a next) eqn:EA; [|apply HR, HI]. destruct HI as [->|HI]; [|apply HR, HI]. apply addr_key in EA. subst next. eexists _, _. left. reflexivity.
Qed.

(** links of a message center over one call *)
Definition linkrel (s s' : st) (d : Z -> Z) : Prop := forall p,
  match aget Z.eqb p (s_links s) with
  | Some l => exists l', aget Z.eqb p (s_links s') = Some l' /\ l_addr l' = l_addr l /\ l_rx l' = l_rx l + d p
  | None => match aget Z.eqb p (s_links s') with None => True | Some l' => l_rx l' = 0 end
  end.
Lemma linkrel_trans : forall a b c d, linkrel a b d -> (forall n, aget Z.eqb n (s_links b) = None -> aget Z.eqb n (s_links a) = None) -> linkrel b c (fun _ => 0) -> linkrel a c d.
Proof.
  intros a b c d H1 HN H2 p. specialize (H1 p). specialize (H2 p). destruct (aget Z.eqb p (s_links a)) as [l|] eqn:E1.
  - destruct H1 as (l1 & E2 & X1 & X2). rewrite E2 in H2. destruct H2 as (l2 & E3 & Y1 & Y2). exists l2. repeat split; [exact E3|congruence|lia].
  - destruct (aget Z.eqb p (s_links b)) as [l1|] eqn:E2; [|exact H2]. destruct H2 as (l2 & E3 & Y1 & Y2). rewrite E3. lia.
Qed.
Lemma linkrel_grow : forall s new s', wf s -> grow s new s' -> linkrel s s' (fun _ => 0).
Proof.
  intros s new s' W G p. destruct (G W) as (_ & _ & _ & N & L & _). destruct (aget Z.eqb p (s_links s)) as [l|] eqn:E.
  - destruct (L p l E) as (l' & X1 & X2 & X3 & _). exists l'. repeat split; [exact X1|exact X2|lia].
  - rewrite (N p E). exact I.
Qed.
Lemma linkrel_same : forall s s', s_links s' = s_links s -> linkrel s s' (fun _ => 0).
Proof. intros s s' E p. rewrite E. destruct (aget Z.eqb p (s_links s)) as [l|] eqn:EL; [exists l; repeat split; lia|exact I]. Qed.
Lemma linkrel_put : forall s l k, aget Z.eqb (a_net (l_addr l)) (s_links s) = Some l -> l_addr k = l_addr l -> linkrel s (putLink s k) (fun p => if p =? a_net (l_addr l) then l_rx k - l_rx l else 0).
Proof.
  intros s l k E EA p. cbn [putLink set_links s_links]. rewrite EA. destruct (Z.eqb_spec p (a_net (l_addr l))) as [->|N].
  - rewrite E, (aput_same _ zkey). exists k. repeat split; [exact EA|lia].
  - rewrite (aput_other _ zkey) by exact N. destruct (aget Z.eqb p (s_links s)) as [x|]; [|exact I]. exists x. repeat split. lia.
Qed.
Lemma put_none : forall s l k n, aget Z.eqb (a_net (l_addr l)) (s_links s) = Some l -> l_addr k = l_addr l -> aget Z.eqb n (s_links (putLink s k)) = None -> aget Z.eqb n (s_links s) = None.
Proof.
  intros s l k n E EA. cbn [putLink set_links s_links]. rewrite EA. destruct (Z.eq_dec n (a_net (l_addr l))) as [->|N]; [rewrite (aput_same _ zkey); discriminate|]. rewrite (aput_other _ zkey) by exact N. auto.
Qed.

Section ONE.
Context (own self deployer : Z).
Context (verify : nat -> Z -> addr -> Z -> list Z -> option (list (option msg))) (serve : nat -> Z -> bshcall -> action) (chain_ok : nat -> Z -> msg -> bool).
Notation exec := (exec own self deployer verify serve chain_ok).

Lemma links_relay : forall s c prev b u s', wf s -> exec s (HandleRelay c prev b) = Val u s' ->
  exists l v ms, getLink s prev = Some l /\ verify (length (s_out s)) v prev (l_rx l) b = Some (map Some ms) /\ incoming verify s (HandleRelay c prev b) = ms /\
    linkrel s s' (fun p => if p =? a_net prev then zlen ms else 0).
Proof.
  intros s c prev b u s' W E. cbn [M_JBmc.exec] in E. unfold handleRelay in E. cbn [incoming]. destruct (getLink s prev) as [l|] eqn:EL; [|discriminate]. pose proof EL as EG. apply getLink_some in EG as [EG EA].
  rewrite EA in E. destruct (aget Z.eqb (a_net prev) (s_verifiers s)) as [v|]; [|discriminate].
  destruct (verify _ v prev (l_rx l) b) as [oms|] eqn:EV; [|discriminate]. destruct (negb (isRelay s prev c)); [discriminate|].
  destruct (grow_dispatch_all _ _ _ _ _ _ _ _ _ _ _ E) as (ms & new & EM & G & _). exists l, v, ms. split; [reflexivity|]. split; [rewrite EV, EM; reflexivity|]. split; [rewrite EM; apply flat_some|].
  rewrite <- EA in EG. set (k := Link prev (l_rx l + zlen oms) (l_tx l) (l_reach l)) in *.
  assert (EK : l_addr k = l_addr l) by (unfold k; cbn [l_addr]; congruence).
  assert (W1 : wf (putLink s k)) by (eapply wf_putLink; [exact W|rewrite EK; exact EG]).
  eapply linkrel_trans; [|intros n; apply (put_none s l k n EG EK)|eapply linkrel_grow; [exact W1|exact G]].
  pose proof (linkrel_put s l k EG EK) as HP. intros p. specialize (HP p). cbv beta in HP. rewrite EA in HP.
  assert (ED : l_rx k - l_rx l = zlen ms). { unfold k. cbn [l_rx]. rewrite EM. unfold zlen. rewrite map_length. lia. }
  rewrite ED in HP. exact HP.
Qed.
Lemma resolve_link : forall s src prev, wf s -> resolveNext s src = inl prev -> exists l, aget Z.eqb (a_net prev) (s_links s) = Some l /\ l_addr l = prev.
Proof.
  intros s src prev W ER. apply resolve_leads in ER. destruct W as (_ & W2 & W3 & _). destruct ER as [b (l & E & <-)|via b E1 E2 (l & E & <-)|nn l b E1 E2 HI HB EN].
  - exists l. rewrite (W2 _ _ E). split; [exact E|reflexivity].
  - exists l. rewrite (W2 _ _ E). split; [exact E|reflexivity].
  - pose proof (aget_unique Z.eqb zkey _ _ _ W3 HI) as EG. exists l. rewrite (W2 _ _ EG). split; [exact EG|reflexivity].
Qed.
Lemma links_drop : forall s c src seq svc sn nsn f u s', wf s -> exec s (DropMessage c src seq svc sn nsn f) = Val u s' ->
  exists prev l, resolveNext s src = inl prev /\ aget Z.eqb (a_net prev) (s_links s) = Some l /\ l_addr l = prev /\ seq = l_rx l + 1 /\ linkrel s s' (fun p => if p =? a_net prev then 1 else 0).
Proof.
  intros s c src seq svc sn nsn f u s' W E. cbn [M_JBmc.exec] in E. unfold owner in E. destruct (isOwner deployer s c); [|discriminate]. unfold dropMessage in E.
  destruct (resolveNext s src) as [prev|] eqn:ERN; [|discriminate]. destruct (resolve_link _ _ _ W ERN) as (l & EL & EA). unfold getLinkNet in E. rewrite EL in E.
  destruct (Z.eqb_spec (l_rx l + 1) seq) as [ES|]; cbn [negb] in E; [|discriminate]. destruct (negb (ahas _ _ _)); [discriminate|]. destruct (isInvalidSn sn nsn); [discriminate|]. cbv zeta in E.
  exists prev, l. split; [reflexivity|]. split; [exact EL|]. split; [exact EA|]. split; [lia|].
  set (k := Link (l_addr l) seq (l_tx l) (l_reach l)) in *. assert (EG : aget Z.eqb (a_net (l_addr l)) (s_links s) = Some l) by (rewrite EA; exact EL).
  assert (W1 : wf (putLink s k)) by (eapply wf_putLink; [exact W|exact EG]).
  destruct (accumulateFee (putLink s k) self f) as [s2 f'] eqn:EAC. pose proof (accumulate_grow (putLink s k) self f) as GA. rewrite EAC in GA. cbn [fst] in GA.
  assert (GX : exists new, grow (putLink s k) new s').
  { destruct (0 <? sn); [destruct (grow_sendError _ _ _ _ _ _ _ _ E) as (nid & n & G)|injection E as _ <-; pose proof (grow_dropped s2 prev seq (Msg src NO_NET svc sn (PBytes []) nsn f') DROPPED) as G]; eexists; eapply grow_pre; [exact GA|exact G|exact GA|exact G]. }
  destruct GX as (new & G). eapply linkrel_trans; [|intros n; apply (put_none s l k n EG eq_refl)|eapply linkrel_grow; [exact W1|exact G]].
  pose proof (linkrel_put s l k EG eq_refl) as HP. intros p. specialize (HP p). cbv beta in HP. rewrite EA in HP. replace (l_rx k - l_rx l) with 1 in HP by (unfold k; cbn [l_rx]; lia). exact HP.
Qed.
Lemma links_addLink : forall s a u s', wf s -> addLink own chain_ok s a = Val u s' -> linkrel s s' (fun _ => 0).
Proof.
  intros s a u s' W E. unfold addLink in E. destruct (negb _); [discriminate|]. destruct (ahas Z.eqb (a_net a) (s_links s)) eqn:EH; [discriminate|]. apply ahas_none in EH.
  destruct (propagate own chain_ok s (s_links s) (PLink a)) as [v s1|] eqn:E1; cbn [bind] in E; [|discriminate].
  destruct (grow_propagate _ _ _ _ _ _ _ E1) as (n1 & G1 & _). destruct (grow_sendInternal _ _ _ _ _ _ _ E) as (n2 & G2 & _).
  pose proof (G1 W) as (W1 & _ & _ & N1 & L1 & _). pose proof (evolve_newLink (fun _ => True) s1 a (N1 _ EH) W1) as (W2 & _). pose proof (G2 W2) as (_ & _ & _ & N2 & L2 & _).
  intros p. destruct (aget Z.eqb p (s_links s)) as [l|] eqn:EP.
  - destruct (L1 p l EP) as (l1 & X1 & X2 & X3 & _). destruct (L2 p l1) as (l2 & Y1 & Y2 & Y3 & _).
    { cbn [putLink set_links s_links l_addr]. rewrite (aput_other _ zkey) by (intros ->; congruence). exact X1. }
    exists l2. repeat split; [exact Y1|congruence|lia].
  - destruct (aget Z.eqb p (s_links s')) as [l2|] eqn:E2; [|exact I]. destruct (Z.eq_dec p (a_net a)) as [->|N].
    + destruct (L2 (a_net a) (Link a 0 0 [])) as (l3 & Y1 & _ & Y3 & _); [cbn [putLink set_links s_links l_addr]; apply (aput_same _ zkey)|]. cbn [l_rx] in Y3. congruence.
    + rewrite N2 in E2; [discriminate|]. cbn [putLink set_links s_links l_addr]. rewrite (aput_other _ zkey) by exact N. apply N1, EP.
Qed.
Lemma links_other : forall s o u s', wf s -> exec s o = Val u s' -> match o with HandleRelay _ _ _ | DropMessage _ _ _ _ _ _ _ | RemoveLink _ _ => True | _ => linkrel s s' (fun _ => 0) end.
Proof.
  intros s o u s' W E. destruct o; try exact I; cbn [M_JBmc.exec] in E; unfold owner in E; try (destruct (isOwner deployer s caller); [|discriminate]).
  - destruct (sendMessage _ _ _ _ _ _ _ _ _ _) as [v s1|] eqn:E1; cbn [bind] in E; [|discriminate]. injection E as _ <-. destruct (grow_sendMessage _ _ _ _ _ _ _ _ _ _ _ _ E1) as (new & G & _). eapply linkrel_grow; eassumption.
  - destruct (grow_claim _ _ _ _ _ _ _ _ _ _ E) as (new & G & _). eapply linkrel_grow; eassumption.
  - destruct (own =? net); [discriminate|]. destruct (ahas _ _ _); [discriminate|]. injection E as _ <-. apply linkrel_same; reflexivity.
  - destruct (ahas _ _ _); [|discriminate]. injection E as _ <-. apply linkrel_same; reflexivity.
  - destruct (_ || _); [discriminate|]. injection E as _ <-. apply linkrel_same; reflexivity.
  - destruct (ahas _ _ _); [|discriminate]. injection E as _ <-. apply linkrel_same; reflexivity.
  - eapply links_addLink; eassumption.
  - destruct (dst =? net); [discriminate|]. destruct (ahas _ _ _); [discriminate|]. destruct (ahas _ _ _); [|discriminate]. injection E as _ <-. apply linkrel_same; reflexivity.
  - destruct (ahas _ _ _); [|discriminate]. injection E as _ <-. apply linkrel_same; reflexivity.
  - apply setFeeTable_keeps in E as (E1 & E2 & _). apply linkrel_same; assumption.
  - injection E as _ <-. apply linkrel_same; reflexivity.
  - destruct (getLink s a); [|discriminate]. destruct (isRelay s a r); [discriminate|]. injection E as _ <-. apply linkrel_same; reflexivity.
  - destruct (getLink s a); [|discriminate]. destruct (remove_swap r (s_relays s a)); [|discriminate]. injection E as _ <-. apply linkrel_same; reflexivity.
  - destruct (negb _); [discriminate|]. destruct (deployer =? a); [discriminate|]. destruct (existsb _ _); [discriminate|]. injection E as _ <-. apply linkrel_same; reflexivity.
  - destruct (negb _); [discriminate|]. destruct (deployer =? a); [discriminate|]. destruct (remove_swap _ _); [|discriminate]. injection E as _ <-. apply linkrel_same; reflexivity.
  - unfold setBTPLink in E. destruct (nid <? 1); [discriminate|]. destruct (s_offsets s nid); [discriminate|]. cbn [bind] in E.
    assert (W1 : wf (set_btp s a (Some nid) nid (Some 0))) by (apply (evolve_same (fun _ => True) s); try reflexivity; exact W).
    pose proof (links_addLink _ _ _ _ W1 E) as H. exact H.
  - destruct (getLink s a); [|discriminate]. unfold setBTPLink in E. destruct (nid <? 1); [discriminate|]. destruct (s_offsets s nid); [discriminate|]. injection E as _ <-. apply linkrel_same; reflexivity.
Qed.
End ONE.
