(** Lemmas about the message center of the Python contracts. *)
From Coq Require Import String Ascii ZArith List Bool Lia.
From Coq Require Import ZifyBool.
From Verif Require Import Base L_Base GoStr S_Address L_Address L_BtpAddr M_JMap L_JMap S_BtpAddr M_PyRlp M_PyBmv M_PyBmc S_PyBmc.
Import ListNotations.
Open Scope Z_scope.
Local Notation bytes := (list Z).

(** * Addresses *)
Lemma index_none : forall s sep, str_index s sep = None -> ~ contains s sep.
Proof.
  induction s as [|x s IH]; intros sep E (a & b & X); cbn [str_index] in E.
  - destruct (has_prefix sep []) eqn:P; [discriminate E|]. destruct a, sep; try discriminate X. discriminate P.
  - destruct (has_prefix sep (x :: s)) eqn:P; [discriminate E|]. destruct (str_index s sep) eqn:E2; [discriminate E|]. destruct a as [|y a].
    + cbn [app] in X. assert (Y : has_prefix sep (x :: s) = true) by (apply has_prefix_spec; exists b; exact X). congruence.
    + cbn [app] in X. injection X as _ X. apply (IH sep E2). exists a, b. exact X.
Qed.
Lemma none_index : forall s sep, ~ contains s sep -> str_index s sep = None.
Proof.
  intros s sep N. destruct (str_index s sep) as [i|] eqn:E; [|reflexivity]. exfalso. apply N. apply str_index_split in E. exists (firstn i s), (skipn (i + length sep) s). exact E.
Qed.
Lemma before_free : forall sep s, sep <> [] -> ~ contains (before sep s) sep.
Proof. intros sep s N. unfold before. destruct (str_index s sep) as [i|] eqn:E; [apply str_index_not_before; assumption|apply index_none, E]. Qed.
Lemma before_same : forall sep s, ~ contains s sep -> before sep s = s.
Proof. intros sep s N. unfold before. rewrite none_index by exact N. reflexivity. Qed.
Lemma slash_free : forall s, ~ contains s (str "/") -> free_of (ch "/") s.
Proof. intros s N I. apply N. apply in_split in I as (a & b & ->). exists a, b. reflexivity. Qed.
Lemma free_slash : forall s, free_of (ch "/") s -> ~ contains s (str "/").
Proof. intros s F (a & b & ->). apply F. apply in_app_iff. right. left. reflexivity. Qed.
Lemma one_slash : forall n c, free_of (ch "/") n -> free_of (ch "/") c -> ~ contains (n ++ str "/" ++ c) (str "://").
Proof.
  intros n c N C (a & b & E). assert (D : forall l, free_of (ch "/") l -> count_occ Z.eq_dec l (ch "/") = 0%nat) by (intros l F; apply count_occ_not_In; exact F).
  apply (f_equal (fun l => count_occ Z.eq_dec l (ch "/"))) in E. rewrite !count_occ_app, (D n N), (D c C) in E.
  change (count_occ Z.eq_dec (str "/") (ch "/")) with 1%nat in E. change (count_occ Z.eq_dec (str "://") (ch "/")) with 2%nat in E. lia.
Qed.
Lemma parse_show : forall p n c, ~ contains p (str "://") -> free_of (ch "/") n -> free_of (ch "/") c -> net_ok n = true ->
  parse_address (show_address (PAddr p n c)) = Some (PAddr p n c).
Proof.
  intros p n c P N C K. unfold show_address. cbn [pa_proto pa_net pa_contract]. unfold parse_address, behind. rewrite str_index_contains by exact P.
  rewrite (skipn_app_l _ p (str "://")) by reflexivity. rewrite (before_same _ _ (one_slash n c N C)). rewrite str_index_slash by exact N.
  rewrite (skipn_app_l _ n (str "/")) by reflexivity. rewrite (before_same _ _ (free_slash c C)).
  assert (B : before (str "/") (n ++ str "/" ++ c) = n) by (unfold before; rewrite str_index_slash by exact N; apply firstn_app_l). rewrite B, K.
  unfold before. rewrite str_index_contains by exact P. rewrite firstn_app_l. reflexivity.
Qed.
Lemma parse_parts : forall s a, parse_address s = Some a -> ~ contains (pa_proto a) (str "://") /\ free_of (ch "/") (pa_net a) /\ free_of (ch "/") (pa_contract a) /\ net_ok (pa_net a) = true.
Proof.
  intros s a E. unfold parse_address in E. destruct (behind (str "://") s) as [r|]; [|discriminate E].
  destruct (net_ok (before (str "/") (before (str "://") r))) eqn:K; [|discriminate E]. injection E as <-. cbn [pa_proto pa_net pa_contract].
  split; [apply before_free; discriminate|]. split; [apply slash_free, before_free; discriminate|]. split; [|exact K].
  match goal with |- context [match ?x with Some _ => _ | None => _ end] => destruct x as [c|] end; [apply (slash_free (before (str "/") c)), before_free; discriminate|]. intros [].
Qed.
Lemma show_parse : forall s a, parse_address s = Some a -> parse_address (show_address a) = Some a.
Proof. intros s [p n c] E. apply parse_parts in E as (P & N & C & K). apply parse_show; assumption. Qed.
Lemma read_iff : forall s a, read_address s = Val a <-> parse_address s = Some a.
Proof.
  intros s a. unfold read_address. destruct (behind (str "://") s) eqn:B.
  - destruct (parse_address s) as [x|]; split; congruence.
  - split; [discriminate|]. unfold parse_address. rewrite B. discriminate.
Qed.
Lemma read_not : forall s, ~ readable s -> exists e, read_address s = Raise e.
Proof. intros s N. destruct (read_address s) as [a|e] eqn:E; [|exists e; reflexivity]. exfalso. apply N. exists a. apply read_iff, E. Qed.
Lemma valid_parse : forall s a, valid_address s = Val a -> parse_address s = Some a.
Proof.
  intros s a E. unfold valid_address in E. destruct (read_address s) as [x|e] eqn:R; [|discriminate E]. cbn [bind] in E.
  apply read_iff in R. destruct (pa_proto x), (pa_net x), (pa_contract x); try discriminate E; congruence.
Qed.

(** * Dictionaries *)
Section DICT.
Context {V : Type}.
Implicit Types l : list (bytes * V).
Lemma kget_first : forall k v l, kget k l = Some v <-> first (fun e => fst e = k) l (k, v).
Proof.
  intros k v l. unfold kget. induction l as [|[x w] l IH]; cbn [aget].
  - split; [discriminate|]. intros (l1 & l2 & E & _). destruct l1; discriminate E.
  - destruct (bytes_eqb_spec k x) as [<-|N].
    + split.
      * intros E. injection E as ->. exists [], l. split; [reflexivity|]. split; [reflexivity|constructor].
      * intros (l1 & l2 & E & P & F). destruct l1 as [|y l1]; cbn [app] in E; [congruence|]. injection E as <- E. inversion F as [|? ? N1 _]; subst. exfalso. apply N1. reflexivity.
    + rewrite IH. split.
      * intros (l1 & l2 & -> & P & F). exists ((x, w) :: l1), l2. split; [reflexivity|]. split; [exact P|]. constructor; [cbn [fst]; congruence|exact F].
      * intros (l1 & l2 & E & P & F). destruct l1 as [|y l1]; cbn [app] in E; [congruence|]. injection E as <- E. exists l1, l2. inversion F; subst. repeat split; assumption.
Qed.
Lemma kget_none : forall k l, kget k l = None <-> ~ In k (map fst l).
Proof. intros k l. apply aget_none. exact bytes_eqb_eq. Qed.
Lemma kget_in : forall k v l, kget k l = Some v -> In (k, v) l.
Proof. intros k v l. apply aget_in. exact bytes_eqb_eq. Qed.
Lemma kget_some : forall k l, In k (map fst l) <-> exists v, kget k l = Some v.
Proof.
  intros k l. destruct (kget k l) as [v|] eqn:E.
  - split; [exists v; reflexivity|]. intros _. apply kget_in in E. apply in_map_iff. exists (k, v). split; [reflexivity|exact E].
  - split; [|intros [v X]; discriminate X]. intros I. apply kget_none in E. contradiction.
Qed.
Lemma kput_same : forall k v l, kget k (kput k v l) = Some v.
Proof. intros k v l. apply aput_same. exact bytes_eqb_eq. Qed.
Lemma kput_other : forall k k' v l, k' <> k -> kget k' (kput k v l) = kget k' l.
Proof. intros k k' v l. apply aput_other. exact bytes_eqb_eq. Qed.
Lemma kput_keys : forall k v l, In k (map fst l) -> map fst (kput k v l) = map fst l.
Proof. intros k v l. apply aput_keys_in. exact bytes_eqb_eq. Qed.
Lemma kput_new : forall k v l, ~ In k (map fst l) -> kput k v l = l ++ [(k, v)].
Proof. intros k v l. apply aput_new. exact bytes_eqb_eq. Qed.
Lemma kdel_get : forall k k' l, NoDup (map fst l) -> kget k' (kdel k l) = if bytes_eqb k' k then None else kget k' l.
Proof.
  intros k k' l. induction l as [|[x w] l IH]; intros N; cbn [kdel].
  - unfold kget. cbn [aget]. destruct (bytes_eqb k' k); reflexivity.
  - cbn [map fst] in N. inversion N as [|? ? N1 N2]; subst. destruct (bytes_eqb_spec k x) as [<-|NE].
    + destruct (bytes_eqb_spec k' k) as [->|NE]; [apply kget_none, N1|]. unfold kget. cbn [aget]. destruct (bytes_eqb_spec k' k); [contradiction|reflexivity].
    + unfold kget in *. cbn [aget]. rewrite IH by exact N2. destruct (bytes_eqb_spec k' x) as [->|NE2]; [|reflexivity]. destruct (bytes_eqb_spec x k); [congruence|reflexivity].
Qed.
Lemma kdel_in : forall k e l, In e (kdel k l) -> In e l.
Proof. intros k e l. induction l as [|[x w] l IH]; cbn [kdel]; [tauto|]. destruct (bytes_eqb k x); [right; assumption|]. intros [I|I]; [left|right]; auto. Qed.
Lemma kdel_keys : forall k x l, In x (map fst (kdel k l)) -> In x (map fst l).
Proof. intros k x l I. apply in_map_iff in I as (e & <- & I). apply in_map. apply kdel_in in I. exact I. Qed.
Lemma kdel_nodup : forall k l, NoDup (map fst l) -> NoDup (map fst (kdel k l)).
Proof.
  intros k l. induction l as [|[x w] l IH]; intros N; cbn [kdel]; [constructor|]. cbn [map fst] in *. inversion N as [|? ? N1 N2]; subst. destruct (bytes_eqb k x); [exact N2|].
  cbn [map fst]. constructor; [|apply IH, N2]. intros I. apply N1, (kdel_keys k), I.
Qed.
End DICT.

(** * Routes *)
Lemma in_net_read : forall net k a, read_address k = Val a -> in_net net k <-> pa_net a = net.
Proof. intros net k a R. apply read_iff in R. unfold in_net. split; [intros (b & E & N); congruence|intros N; exists a; split; assumption]. Qed.
Lemma first_head : forall A (P : A -> Prop) x l, P x -> first P (x :: l) x.
Proof. intros A P x l H. exists [], l. split; [reflexivity|]. split; [exact H|constructor]. Qed.
Lemma first_tail : forall A (P : A -> Prop) x y l, ~ P x -> first P l y -> first P (x :: l) y.
Proof. intros A P x y l N (l1 & l2 & -> & H & F). exists (x :: l1), l2. split; [reflexivity|]. split; [exact H|constructor; assumption]. Qed.
Lemma first_none : forall A (P : A -> Prop) l x, Forall (fun y => ~ P y) l -> ~ first P l x.
Proof. intros A P l x F (l1 & l2 & -> & H & _). rewrite Forall_forall in F. apply (F x); [apply in_app_iff; right; left; reflexivity|exact H]. Qed.
Lemma first_unique : forall A (P : A -> Prop) l x y, first P l x -> first P l y -> x = y.
Proof.
  intros A P l x y (l1 & l2 & E & H & F) (m1 & m2 & E' & H' & F'). subst l. revert m1 E' F'. induction l1 as [|z l1 IH]; intros m1 E F'.
  - destruct m1 as [|w m1]; [cbn in E; congruence|]. cbn in E. injection E as <- E. inversion F'; subst; contradiction.
  - inversion F as [|? ? N1 F1]; subst. destruct m1 as [|w m1]; [cbn in E; injection E as -> E; contradiction|]. cbn in E. injection E as -> E. inversion F'; subst. apply (IH F1 m1 E). assumption.
Qed.
Lemma route_loop_some : forall net l v, route_loop net l = Val (Some v) -> exists k, first (fun e => in_net net (fst e)) l (k, v).
Proof.
  intros net l v. induction l as [|[k w] l IH]; cbn [route_loop]; [discriminate|]. destruct (read_address k) as [a|e] eqn:R; [|discriminate]. cbn [bind].
  destruct (bytes_eqb_spec (pa_net a) net) as [N|N].
  - intros E. injection E as ->. exists k. apply first_head. cbn [fst]. apply (in_net_read net k a R), N.
  - intros E. apply IH in E as (k' & F). exists k'. apply first_tail; [|exact F]. cbn [fst]. intros I. apply (in_net_read net k a R) in I. contradiction.
Qed.
Lemma route_loop_none : forall net l, route_loop net l = Val None -> Forall (fun e => ~ in_net net (fst e)) l.
Proof.
  intros net l. induction l as [|[k w] l IH]; cbn [route_loop]; [constructor|]. destruct (read_address k) as [a|e] eqn:R; [|discriminate]. cbn [bind].
  destruct (bytes_eqb_spec (pa_net a) net) as [N|N]; [discriminate|]. intros E. constructor; [|apply IH, E]. cbn [fst]. intros I. apply (in_net_read net k a R) in I. contradiction.
Qed.
Lemma route_loop_total : forall net l, Forall (fun e : bytes * bytes => readable (fst e)) l -> exists o, route_loop net l = Val o.
Proof.
  intros net l F. induction F as [|[k w] l (a & R) F IH]; cbn [route_loop]; [exists None; reflexivity|]. apply read_iff in R. cbn [fst] in R. rewrite R. cbn [bind].
  destruct (bytes_eqb (pa_net a) net); [exists (Some w); reflexivity|exact IH].
Qed.
Lemma direct_loop_some : forall net l k, direct_loop net l = Val (Some k) -> exists x, first (fun e => in_net net (fst e)) l (k, x).
Proof.
  intros net l v. induction l as [|[k w] l IH]; cbn [direct_loop]; [discriminate|]. destruct (read_address k) as [a|e] eqn:R; [|discriminate]. cbn [bind].
  destruct (bytes_eqb_spec (pa_net a) net) as [N|N].
  - intros E. injection E as ->. exists w. apply first_head. cbn [fst]. apply (in_net_read net v a R), N.
  - intros E. apply IH in E as (k' & F). exists k'. apply first_tail; [|exact F]. cbn [fst]. intros I. apply (in_net_read net k a R) in I. contradiction.
Qed.
Lemma direct_loop_none : forall net l, direct_loop net l = Val None -> Forall (fun e => ~ in_net net (fst e)) l.
Proof.
  intros net l. induction l as [|[k w] l IH]; cbn [direct_loop]; [constructor|]. destruct (read_address k) as [a|e] eqn:R; [|discriminate]. cbn [bind].
  destruct (bytes_eqb_spec (pa_net a) net) as [N|N]; [discriminate|]. intros E. constructor; [|apply IH, E]. cbn [fst]. intros I. apply (in_net_read net k a R) in I. contradiction.
Qed.
Lemma direct_loop_total : forall net l, Forall (fun e : bytes * plink => readable (fst e)) l -> exists o, direct_loop net l = Val o.
Proof.
  intros net l F. induction F as [|[k w] l (a & R) F IH]; cbn [direct_loop]; [exists None; reflexivity|]. apply read_iff in R. cbn [fst] in R. rewrite R. cbn [bind].
  destruct (bytes_eqb (pa_net a) net); [exists (Some k); reflexivity|exact IH].
Qed.
Lemma reach_loop_iff : forall net l b, reach_loop net l = Val b -> if b then exists r, In r l /\ in_net net r else forall r, In r l -> ~ in_net net r.
Proof.
  intros net l b. induction l as [|k l IH]; cbn [reach_loop]; [intros E; injection E as <-; intros r []|]. destruct (read_address k) as [a|e] eqn:R; [|discriminate]. cbn [bind].
  destruct (bytes_eqb_spec (pa_net a) net) as [N|N].
  - intros E. injection E as <-. exists k. split; [left; reflexivity|apply (in_net_read net k a R), N].
  - intros E. apply IH in E. destruct b; [destruct E as (r & I & J); exists r; split; [right; exact I|exact J]|]. intros r [<-|I]; [|apply E, I]. intros X. apply (in_net_read net k a R) in X. contradiction.
Qed.
Lemma reach_loop_total : forall net l, Forall readable l -> exists b, reach_loop net l = Val b.
Proof.
  intros net l F. induction F as [|k l (a & R) F IH]; cbn [reach_loop]; [exists false; reflexivity|]. apply read_iff in R. rewrite R. cbn [bind]. destruct (bytes_eqb (pa_net a) net); [exists true; reflexivity|exact IH].
Qed.
Lemma links_loop_some : forall net l k, links_loop net l = Val (Some k) -> exists x, first (fun e => exists r, In r (k_reach (snd e)) /\ in_net net r) l (k, x).
Proof.
  intros net l v. induction l as [|[k w] l IH]; cbn [links_loop]; [discriminate|]. destruct (reach_loop net (k_reach w)) as [b|e] eqn:R; [|discriminate]. cbn [bind]. apply reach_loop_iff in R. destruct b.
  - intros E. injection E as ->. exists w. apply first_head. exact R.
  - intros E. apply IH in E as (k' & F). exists k'. apply first_tail; [|exact F]. intros (r & I & J). exact (R r I J).
Qed.
Lemma links_loop_none : forall net l, links_loop net l = Val None -> Forall (fun e => ~ exists r, In r (k_reach (snd e)) /\ in_net net r) l.
Proof.
  intros net l. induction l as [|[k w] l IH]; cbn [links_loop]; [constructor|]. destruct (reach_loop net (k_reach w)) as [b|e] eqn:R; [|discriminate]. cbn [bind]. apply reach_loop_iff in R. destruct b; [discriminate|].
  intros E. constructor; [|apply IH, E]. intros (r & I & J). exact (R r I J).
Qed.
Lemma links_loop_total : forall net l, Forall (fun e : bytes * plink => Forall readable (k_reach (snd e))) l -> exists o, links_loop net l = Val o.
Proof.
  intros net l F. induction F as [|[k w] l R F IH]; cbn [links_loop]; [exists None; reflexivity|]. cbn [snd] in R. destruct (reach_loop_total net _ R) as (b & ->). cbn [bind]. destruct b; [exists (Some k); reflexivity|exact IH].
Qed.
Lemma route_resolve_some : forall s net v, route_resolve s net = Val (Some v) -> route_for s net v.
Proof.
  intros s net v E. unfold route_resolve in E. destruct (kget net (c_routes s)) as [w|] eqn:G.
  - injection E as ->. left. exists v. split; [apply kget_first, G|reflexivity].
  - right. split; [|apply route_loop_some, E]. intros w I. apply kget_none in G. apply G. apply in_map_iff. exists (net, w). split; [reflexivity|exact I].
Qed.
Lemma route_resolve_none : forall s net, route_resolve s net = Val None -> forall e, ~ route_for s net e.
Proof.
  intros s net E e [(v & F & _)|(_ & k & F)]; unfold route_resolve in E; destruct (kget net (c_routes s)) as [w|] eqn:G; try discriminate E.
  - apply kget_first in F. congruence.
  - apply route_loop_none in E. exact (first_none _ _ _ _ E F).
Qed.
(** What is found is the neighbour the specification names. *)
Lemma resolve_hop : forall s net o d, resolve s net = Val (o, d) -> hop s net d /\ (o = Some d /\ linked s d \/ o = None /\ ~ linked s d).
Proof.
  intros s net o d E. unfold resolve in E. destruct (route_resolve s net) as [[v|]|e] eqn:R; [| |discriminate E]; cbn [bind] in E.
  - destruct (kget v (c_links s)) as [l|] eqn:G; injection E as <- <-; (split; [apply h_route, route_resolve_some, R|]).
    + left. split; [reflexivity|]. apply kget_some. exists l. exact G.
    + right. split; [reflexivity|]. apply kget_none, G.
  - pose proof (route_resolve_none _ _ R) as NR. destruct (direct_loop net (c_links s)) as [[k|]|e] eqn:D; [| |discriminate E]; cbn [bind] in E.
    + injection E as <- <-. apply direct_loop_some in D. split; [apply h_direct; assumption|]. left. split; [reflexivity|]. destruct D as (x & l1 & l2 & E & _). unfold linked. rewrite E, map_app. apply in_app_iff. right. left. reflexivity.
    + destruct (links_loop net (c_links s)) as [[k|]|e] eqn:L; [| |discriminate E]; cbn [bind] in E; [|discriminate E]. injection E as <- <-. apply links_loop_some in L.
      split; [apply h_reach; [exact NR| |exact L]|]; [|left; split; [reflexivity|]].
      * intros e (x & F). apply direct_loop_none in D. exact (first_none _ _ _ _ D F).
      * destruct L as (x & l1 & l2 & E & _). unfold linked. rewrite E, map_app. apply in_app_iff. right. left. reflexivity.
Qed.
Lemma hop_unique : forall s net d e, hop s net d -> hop s net e -> d = e.
Proof.
  intros s net d e A B.
  assert (R : forall d e, route_for s net d -> route_for s net e -> d = e).
  { intros x y [(v & F & ->)|(N & k & F)] [(w & G & ->)|(M & j & G)].
    - pose proof (first_unique _ _ _ _ _ F G). congruence.
    - exfalso. destruct F as (l1 & l2 & E & _). apply (M v). rewrite E. apply in_app_iff. right. left. reflexivity.
    - exfalso. destruct G as (l1 & l2 & E & _). apply (N w). rewrite E. apply in_app_iff. right. left. reflexivity.
    - pose proof (first_unique _ _ _ _ _ F G). congruence. }
  destruct A as [A|A1 A|A1 A2 A], B as [B|B1 B|B1 B2 B].
  - apply R; assumption.
  - exfalso; exact (B1 _ A).
  - exfalso; exact (B1 _ A).
  - exfalso; exact (A1 _ B).
  - destruct A as (x & A), B as (y & B). pose proof (first_unique _ _ _ _ _ A B). congruence.
  - exfalso; exact (B2 _ A).
  - exfalso; exact (A1 _ B).
  - exfalso; exact (A2 _ B).
  - destruct A as (x & A), B as (y & B). pose proof (first_unique _ _ _ _ _ A B). congruence.
Qed.
Lemma resolve_total : forall s net, all_readable s -> (exists x, resolve s net = Val x) \/ (resolve s net = Raise (UNREACHABLE net) /\ forall d, ~ hop s net d).
Proof.
  intros s net (R & L). assert (L1 : Forall (fun e : bytes * plink => readable (fst e)) (c_links s)) by (eapply Forall_impl; [|exact L]; intros e H; apply H).
  assert (L2 : Forall (fun e : bytes * plink => Forall readable (k_reach (snd e))) (c_links s)) by (eapply Forall_impl; [|exact L]; intros e H; apply H).
  unfold resolve. assert (T : exists o, route_resolve s net = Val o) by (unfold route_resolve; destruct (kget net (c_routes s)) as [v|]; [exists (Some v); reflexivity|apply route_loop_total, R]).
  destruct T as ([v|] & E); rewrite E; cbn [bind]; [left; eexists; reflexivity|]. destruct (direct_loop_total net _ L1) as ([k|] & D); rewrite D; cbn [bind]; [left; eexists; reflexivity|].
  destruct (links_loop_total net _ L2) as ([k|] & M); rewrite M; cbn [bind]; [left; eexists; reflexivity|]. right. split; [reflexivity|].
  intros d [H|_ (x & H)|_ _ (x & H)]; [exact (route_resolve_none _ _ E _ H)|apply direct_loop_none in D; exact (first_none _ _ _ _ D H)|apply links_loop_none in M; exact (first_none _ _ _ _ M H)].
Qed.
(** A failed search found nobody, or met a text that is no address. *)
Lemma loop_raise_read : forall k e, read_address k = Raise e -> e = XOther \/ e = XBtp 0 (str "fail to parse, net_address").
Proof. intros k e. unfold read_address. destruct (behind (str "://") k); [|intros E; left; congruence]. destruct (parse_address k); [discriminate|]. intros E. right. congruence. Qed.

(** * What handling changes *)
Definition plain_out (o : out) : bool := match o with OLinked _ => false | _ => true end.
Lemma sent_app : forall k t o, sent k (t ++ [o]) = count k (sent k t) o.
Proof. intros k t o. unfold sent. rewrite fold_left_app. reflexivity. Qed.
Lemma upto_succ : forall n, 0 <= n -> upto (n + 1) = upto n ++ [n + 1].
Proof.
  intros n N. unfold upto. replace (Z.to_nat (n + 1)) with (S (Z.to_nat n)) by lia. rewrite seq_S, map_app. cbn [map]. f_equal. f_equal. lia.
Qed.
(** The messages of every neighbour are numbered from 1 on. *)
Record numbered (s : bmc) : Prop := {
  nb_keys : NoDup (map fst (c_links s));
  nb_sent : forall k, exists n, 0 <= n /\ sent k (c_out s) = upto n /\ (forall l, kget k (c_links s) = Some l -> k_tx l = n);
  nb_made : forall k, linked s k -> In (OLinked k) (c_out s);
  nb_none : forall k, ~ In (OLinked k) (c_out s) -> sent k (c_out s) = [] }.
(** [same s t s']: the same center, links and received numbers; [t] was put out. *)
Record same (s : bmc) (t : list out) (s' : bmc) : Prop := {
  sm_me : c_me s' = c_me s; sm_net : c_net s' = c_net s; sm_services : c_services s' = c_services s; sm_verifiers : c_verifiers s' = c_verifiers s; sm_routes : c_routes s' = c_routes s;
  sm_keys : map fst (c_links s') = map fst (c_links s);
  sm_rx : forall k l', kget k (c_links s') = Some l' -> exists l, kget k (c_links s) = Some l /\ k_rx l' = k_rx l;
  sm_out : c_out s' = c_out s ++ t;
  sm_plain : forallb plain_out t = true;
  sm_num : numbered s -> numbered s' }.
Lemma same_refl : forall s, same s [] s.
Proof. intros s. constructor; try reflexivity. { intros k l E. exists l. split; [exact E|reflexivity]. } { rewrite app_nil_r. reflexivity. } { intros N; exact N. } Qed.
Lemma same_trans : forall s t s' u s'', same s t s' -> same s' u s'' -> same s (t ++ u) s''.
Proof.
  intros s t s' u s'' [] []. constructor; try congruence.
  - intros k l E. apply sm_rx1 in E as (l1 & E & R). apply sm_rx0 in E as (l0 & E & R0). exists l0. split; [exact E|congruence].
  - rewrite sm_out1, sm_out0, app_assoc. reflexivity.
  - rewrite forallb_app, sm_plain0, sm_plain1. reflexivity.
  - intros N. apply sm_num1, sm_num0, N.
Qed.
Lemma numbered_quiet : forall s s' o, c_links s' = c_links s -> c_out s' = c_out s ++ [o] -> match o with OLinked _ | OMessage _ _ _ => False | _ => True end -> numbered s -> numbered s'.
Proof.
  intros s s' o L O P [K S M N]. constructor.
  - rewrite L. exact K.
  - intros k. destruct (S k) as (n & A & B & C). exists n. split; [exact A|]. split; [|rewrite L; exact C]. rewrite O, sent_app. destruct o; try contradiction; exact B.
  - intros k I. unfold linked in I. rewrite L in I. rewrite O. apply in_app_iff. left. apply M, I.
  - intros k I. rewrite O, sent_app. rewrite O in I. assert (J : sent k (c_out s) = []) by (apply N; intros X; apply I, in_app_iff; left; exact X). rewrite J. destruct o; try contradiction; reflexivity.
Qed.
Lemma emit_same : forall s o, match o with OLinked _ | OMessage _ _ _ => False | _ => True end -> same s [o] (emit s o).
Proof.
  intros s o P. constructor; try reflexivity.
  - intros k l E. exists l. split; [exact E|reflexivity].
  - destruct o; try contradiction; reflexivity.
  - apply (numbered_quiet s (emit s o) o); [reflexivity|reflexivity|exact P].
Qed.
Lemma set_link_rx : forall s k l l', kget k (c_links s) = Some l -> k_rx l' = k_rx l ->
  forall x y, kget x (c_links (set_link s k l')) = Some y -> exists z, kget x (c_links s) = Some z /\ k_rx y = k_rx z.
Proof.
  intros s k l l' G R x y E. cbn [set_link with_links c_links] in E. destruct (bytes_eqb_spec x k) as [->|N].
  - rewrite kput_same in E. injection E as <-. exists l. split; assumption.
  - rewrite kput_other in E by exact N. exists y. split; [exact E|reflexivity].
Qed.
Lemma set_link_keys : forall s k l l', kget k (c_links s) = Some l -> map fst (c_links (set_link s k l')) = map fst (c_links s).
Proof. intros s k l l' G. cbn [set_link with_links c_links]. apply kput_keys. apply kget_some. exists l. exact G. Qed.
Lemma numbered_set : forall s k l l', kget k (c_links s) = Some l -> k_tx l' = k_tx l -> numbered s -> numbered (set_link s k l').
Proof.
  intros s k l l' G T [K S M N]. constructor.
  - rewrite (set_link_keys _ _ _ _ G). exact K.
  - intros x. destruct (S x) as (n & A & B & C). exists n. split; [exact A|]. split; [exact B|]. intros y E. cbn [set_link with_links c_links] in E. destruct (bytes_eqb_spec x k) as [->|NE].
    + rewrite kput_same in E. injection E as <-. rewrite T. apply C, G.
    + rewrite kput_other in E by exact NE. apply C, E.
  - intros x I. apply M. unfold linked in *. rewrite (set_link_keys _ _ _ _ G) in I. exact I.
  - exact N.
Qed.
Lemma set_link_same : forall s k l l', kget k (c_links s) = Some l -> k_rx l' = k_rx l -> k_tx l' = k_tx l -> same s [] (set_link s k l').
Proof.
  intros s k l l' G R T. constructor; try reflexivity.
  - apply (set_link_keys _ _ _ _ G).
  - apply (set_link_rx _ _ _ _ G R).
  - rewrite app_nil_r. reflexivity.
  - apply (numbered_set _ _ _ _ G T).
Qed.
Lemma send_same : forall s to msg s', send_message s to msg = Val s' -> linked s to /\ exists n, same s [OMessage to n msg] s'.
Proof.
  intros s to msg s' E. unfold send_message in E. destruct (kget to (c_links s)) as [l|] eqn:G; [|discriminate E]. cbn [need bind] in E. injection E as <-.
  split; [apply kget_some; exists l; exact G|]. exists (k_tx l + 1). set (l' := PLink (k_rx l) (k_tx l + 1) (k_reach l) (k_sack l)). constructor; try reflexivity.
  - apply (set_link_keys _ _ _ l' G).
  - apply (set_link_rx _ _ _ l' G). reflexivity.
  - intros [K S M N]. assert (KE : map fst (c_links (set_link s to l')) = map fst (c_links s)) by apply (set_link_keys _ _ _ l' G). constructor.
    + change (NoDup (map fst (c_links (set_link s to l')))). rewrite KE. exact K.
    + intros x. change (c_out (emit (set_link s to l') (OMessage to (k_tx l + 1) msg))) with (c_out s ++ [OMessage to (k_tx l + 1) msg]).
      change (c_links (emit (set_link s to l') (OMessage to (k_tx l + 1) msg))) with (kput to l' (c_links s)). rewrite sent_app. cbn [count]. destruct (S x) as (n & A & B & C). destruct (bytes_eqb_spec to x) as [->|NE].
      * rewrite (C l G). exists (n + 1). split; [lia|]. split; [rewrite B, upto_succ by exact A; reflexivity|]. intros y E. rewrite kput_same in E. injection E as <-. cbn [k_tx l']. rewrite (C l G). reflexivity.
      * exists n. split; [exact A|]. split; [exact B|]. intros y E. rewrite kput_other in E by congruence. apply C, E.
    + intros x I. assert (J : linked s x) by (unfold linked in *; rewrite <- KE; exact I). cbn [emit set_link with_links c_out]. apply in_app_iff. left. apply M, J.
    + intros x I. cbn [emit set_link with_links c_out] in I |- *. rewrite sent_app. assert (J : ~ In (OLinked x) (c_out s)) by (intros X; apply I, in_app_iff; left; exact X). rewrite (N x J). cbn [count].
      destruct (bytes_eqb_spec to x) as [->|NE]; [|reflexivity]. exfalso. apply J, M. unfold linked. apply kget_some. exists l. exact G.
Qed.
Lemma send_error_same : forall s prev m sn code text s', send_error s prev m sn code text = Val s' -> exists t, same s t s' /\ messages t = failure s prev m sn code text /\ filter is_handle t = [].
Proof.
  intros s prev m sn code text s' E. unfold send_error in E. unfold failure. destruct (sn =? 0).
  - injection E as <-. exists []. split; [apply same_refl|]. split; reflexivity.
  - apply send_same in E as (_ & n & S). eexists. split; [exact S|]. split; reflexivity.
Qed.
Lemma sendMessage_same : forall s to svc sn msg s', sendMessage s to svc sn msg = Val s' -> exists n d, 0 <= sn /\ hop s to d /\ linked s d /\ same s [OMessage d n (write_message (c_me s) d (Some svc) sn (Some msg))] s'.
Proof.
  intros s to svc sn msg s' E. unfold sendMessage in E. destruct (sn <? 0) eqn:N; [discriminate E|]. destruct (resolve s to) as [[o d]|e] eqn:R; [|discriminate E]. cbn [bind fst snd] in E.
  apply resolve_hop in R as (H & [(-> & L)|(-> & _)]); [|discriminate E]. cbn [need bind] in E. apply send_same in E as (_ & n & S). exists n, d. split; [lia|]. split; [exact H|]. split; [exact L|exact S].
Qed.
Lemma sends_same : forall l s, exists t, same s t (sends s l) /\ filter is_handle t = [] /\ (l = [] -> t = []).
Proof.
  induction l as [|[[[to svc] sn] msg] l IH]; intros s; cbn [sends].
  - exists []. split; [apply same_refl|]. split; reflexivity.
  - destruct (sendMessage s to svc sn msg) as [s1|e] eqn:E.
    + apply sendMessage_same in E as (n & d & _ & _ & _ & S). destruct (IH s1) as (t & S1 & F & _). eexists. split; [apply (same_trans _ _ _ _ _ S S1)|]. split; [exact F|discriminate].
    + destruct (IH s) as (t & S1 & F & _). exists t. split; [exact S1|]. split; [exact F|discriminate].
Qed.
Lemma on_link_same : forall s f t s', on_link s f t = Val s' -> same s [] s'.
Proof.
  intros s f t s' E. unfold on_link in E. destruct f as [f|]; [|injection E as <-; apply same_refl]. destruct (read_address f) as [a|x]; [|discriminate E]. cbn [bind] in E.
  destruct (kget (show_address a) (c_links s)) as [l|] eqn:G; [|injection E as <-; apply same_refl]. destruct t as [t|]; [|discriminate E].
  destruct (existsb (bytes_eqb t) (k_reach l)); injection E as <-; [apply same_refl|]. apply (set_link_same _ _ l); [exact G|reflexivity|reflexivity].
Qed.
Lemma on_unlink_same : forall s f t s', on_unlink s f t = Val s' -> same s [] s'.
Proof.
  intros s f t s' E. unfold on_unlink in E. destruct f as [f|]; [|injection E as <-; apply same_refl]. destruct (read_address f) as [a|x]; [|discriminate E]. cbn [bind] in E.
  destruct (kget (show_address a) (c_links s)) as [l|] eqn:G; [|injection E as <-; apply same_refl]. destruct t as [t|]; injection E as <-; [|apply same_refl]. apply (set_link_same _ _ l); [exact G|reflexivity|reflexivity].
Qed.
Lemma is_text_eq : forall s x, is_text s x = true <-> s = Some (str x).
Proof. intros [s|] x; cbn [is_text]; [|split; discriminate]. rewrite bytes_eqb_eq. split; [intros ->; reflexivity|intros E; injection E as ->; reflexivity]. Qed.

Section HANDLE.
Variable utf8 : bytes -> bool.
Variable serve : list out -> out -> outcome.
Lemma handle_event_same : forall s m s', handle_event utf8 s m = Val s' -> same s [] s'.
Proof.
  intros s m s' E. unfold handle_event in E. destruct (read_event utf8 (b_pay m)) as [[n l]|x]; [|discriminate E]. cbn [bind fst snd] in E.
  destruct (is_text n "Link"); [|destruct (is_text n "Unlink"); [|discriminate E]]; destruct l as [|a [|b l]]; try discriminate E; [eapply on_link_same, E|eapply on_unlink_same, E].
Qed.
Lemma handle_sack_same : forall s prev m s', handle_sack utf8 s prev m = Val s' -> same s [] s'.
Proof.
  intros s prev m s' E. unfold handle_sack in E. destruct (read_sack utf8 (b_pay m)) as [x|x]; [|discriminate E]. cbn [bind] in E. destruct (kget prev (c_links s)) as [l|] eqn:G; [|discriminate E]. cbn [need bind] in E. injection E as <-.
  apply (set_link_same _ _ l); [exact G|reflexivity|reflexivity].
Qed.
Lemma messages_app : forall a b, messages (a ++ b) = messages a ++ messages b.
Proof. intros a b. unfold messages. apply flat_map_app. Qed.
Lemma registered_get : forall s svc a, kget (svc_key svc) (c_services s) = Some a <-> registered s svc a.
Proof. intros s svc a. unfold registered. apply kget_first. Qed.
Lemma unregistered_get : forall s svc, kget (svc_key svc) (c_services s) = None -> forall a, ~ registered s svc a.
Proof. intros s svc E a R. apply registered_get in R. congruence. Qed.

Definition inner_dec : forall m, {inner m} + {~ inner m}.
Proof.
  intros m. unfold inner. destruct (is_text (b_svc m) "_event") eqn:A; [left; left; apply is_text_eq, A|]. destruct (is_text (b_svc m) "_sack") eqn:B; [left; right; apply is_text_eq, B|].
  right. intros [X|X]; apply is_text_eq in X; congruence.
Qed.
Lemma not_inner : forall m, ~ inner m -> is_text (b_svc m) "_event" = false /\ is_text (b_svc m) "_sack" = false.
Proof.
  intros m N. split; [destruct (is_text (b_svc m) "_event") eqn:A|destruct (is_text (b_svc m) "_sack") eqn:A]; try reflexivity; exfalso; apply N; apply is_text_eq in A; [left|right]; exact A.
Qed.

Lemma handle_msg_same : forall s prev v m s', read_message utf8 v = Some m -> for_me s m -> handle_msg utf8 serve s prev m = Val s' ->
  exists t, same s t s' /\ called utf8 s v (filter is_handle t) /\ (quiet serve -> answers utf8 serve s prev v (messages t)).
Proof.
  intros s prev v m s' R M E. unfold handle_msg in E. destruct (inner_dec m) as [I|N].
  - exists []. assert (S : same s [] s').
    { destruct (is_text (b_svc m) "_event") eqn:A; [eapply handle_event_same, E|]. destruct (is_text (b_svc m) "_sack") eqn:B; [eapply handle_sack_same, E|].
      exfalso. destruct I as [X|X]; apply is_text_eq in X; congruence. }
    split; [exact S|]. split; [eapply w_inner; eassumption|]. intros _. eapply a_inner; eassumption.
  - destruct (not_inner m N) as (A & B). rewrite A, B in E. destruct (b_sn m) as [sn|] eqn:SN; [|discriminate E]. cbn [need bind] in E. destruct (0 <=? sn) eqn:P.
    + unfold handle_service in E. destruct (kget (svc_key (b_svc m)) (c_services s)) as [a|] eqn:G.
      * destruct (b_src m) as [src|] eqn:SR; [|discriminate E]. cbn [need bind] in E. apply registered_get in G. set (c := OHandle a (pa_net src) (b_svc m) sn (b_pay m)) in *.
        assert (SE : same s [c] (emit s c)) by (apply emit_same; exact Logic.I).
        assert (CL : called utf8 s v [c]) by (apply (w_message utf8 s v m a src sn); try assumption; lia).
        destruct (serve (c_out s) c) as [l|[code text|]] eqn:SV; [| |discriminate E].
        -- injection E as <-. destruct (sends_same l (emit s c)) as (t & S & F & Q). exists ([c] ++ t). split; [apply (same_trans _ _ _ _ _ SE S)|]. split.
           ++ cbn [app filter is_handle c]. rewrite F. exact CL.
           ++ intros QU. rewrite (QU _ _ _ SV) in Q. rewrite (Q eq_refl). cbn. pose proof (QU _ _ _ SV) as ->. apply (a_done utf8 serve s prev v m sn a src); try assumption. lia.
        -- apply send_error_same in E as (t & S & T & F). exists ([c] ++ t). split; [apply (same_trans _ _ _ _ _ SE S)|]. split.
           ++ cbn [app filter is_handle c]. rewrite F. exact CL.
           ++ intros QU. rewrite messages_app, T. cbn [messages flat_map c app]. apply (a_refused utf8 serve s prev v m sn a src code text); try assumption. lia.
      * pose proof (unregistered_get _ _ G) as U. unfold NO_SERVICE, X_BMC in E. apply send_error_same in E as (t & S & T & F). exists t. split; [exact S|]. split.
        -- rewrite F. apply (w_unknown utf8 s v m); assumption.
        -- intros _. rewrite T. apply (a_unknown utf8 serve s prev v m sn); try assumption. lia.
    + unfold handle_error in E. destruct (read_error utf8 (b_pay m)) as [[code text]|x] eqn:RE; [|discriminate E]. cbn [bind fst snd] in E.
      destruct (kget (svc_key (b_svc m)) (c_services s)) as [a|] eqn:G.
      * apply registered_get in G. set (c := OHandleError a (shown (b_src m)) (b_svc m) (- sn) code text) in *. assert (SE : same s [c] (emit s c)) by (apply emit_same; exact Logic.I).
        assert (CL : called utf8 s v [c]) by (apply (w_error utf8 s v m a sn code text); try assumption; lia).
        destruct (serve (c_out s) c) as [l|x] eqn:SV; injection E as <-.
        -- destruct (sends_same l (emit s c)) as (t & S & F & Q). exists ([c] ++ t). split; [apply (same_trans _ _ _ _ _ SE S)|]. split.
           ++ cbn [app filter is_handle c]. rewrite F. exact CL.
           ++ intros QU. rewrite (QU _ _ _ SV) in Q. rewrite (Q eq_refl). cbn. apply (a_error utf8 serve s prev v m sn); try assumption. lia.
        -- exists ([c] ++ [OErrorOn (b_svc m) (- sn) code text x]). split; [apply (same_trans _ _ _ _ _ SE), emit_same; exact Logic.I|]. split; [exact CL|].
           intros _. cbn. apply (a_error utf8 serve s prev v m sn); try assumption. lia.
      * pose proof (unregistered_get _ _ G) as U. injection E as <-. exists [OErrorOn (b_svc m) (- sn) code text NO_SERVICE]. split; [apply emit_same; exact Logic.I|]. split.
        -- apply (w_unknown utf8 s v m); assumption.
        -- intros _. cbn. apply (a_error utf8 serve s prev v m sn); try assumption. lia.
Qed.
Lemma pass_on_same : forall s prev m raw s', read_message utf8 (PBytes raw) = Some m -> ~ for_me s m -> pass_on s prev m raw = Val s' ->
  exists t, same s t s' /\ filter is_handle t = [] /\ (all_readable s -> answers utf8 serve s prev (PBytes raw) (messages t)).
Proof.
  intros s prev m raw s' R N E. unfold pass_on in E. destruct (b_dst m) as [d|] eqn:D; [|discriminate E]. cbn [need bind] in E.
  destruct (resolve s (pa_net d)) as [[o x]|e] eqn:RS; cbn [bind fst] in E.
  - destruct (resolve_hop _ _ _ _ RS) as (H & [(-> & L)|(-> & _)]); [|discriminate E]. cbn [need bind] in E. destruct (send_message s x raw) as [s1|e] eqn:SD.
    + injection E as <-. apply send_same in SD as (_ & n & S). exists [OMessage x n raw]. split; [exact S|]. split; [reflexivity|]. intros _. cbn. eapply a_pass; try eassumption. reflexivity.
    + exfalso. unfold send_message in SD. apply kget_some in L as (l & G). rewrite G in SD. discriminate SD.
  - destruct e as [code text|]; [|discriminate E]. destruct (b_sn m) as [sn|] eqn:SN; [|discriminate E]. apply send_error_same in E as (t & S & T & F). exists t. split; [exact S|]. split; [exact F|].
    intros A. destruct (resolve_total s (pa_net d) A) as [(y & X)|(X & NH)]; [congruence|]. rewrite RS in X. unfold UNREACHABLE in X. injection X as -> ->. rewrite T. apply (a_unreachable utf8 serve s prev (PBytes raw) m sn d); assumption.
Qed.
Lemma relay_one_same : forall s prev v s', relay_one utf8 serve s prev v = Val s' ->
  exists t, same s t s' /\ called utf8 s v (filter is_handle t) /\ (quiet serve -> all_readable s -> answers utf8 serve s prev v (messages t)).
Proof.
  intros s prev v s' E. unfold relay_one in E. destruct (read_message utf8 v) as [m|] eqn:R.
  - assert (B : exists raw, v = PBytes raw) by (unfold read_message in R; destruct v; try discriminate R; eexists; reflexivity). destruct B as (raw & ->).
    destruct (bytes_eqb_spec (shown (b_dst m)) (c_me s)) as [M|M].
    + apply (handle_msg_same s prev (PBytes raw) m s' R M) in E as (t & S & C & Q). exists t. split; [exact S|]. split; [exact C|]. intros QU _. apply Q, QU.
    + apply (pass_on_same s prev m raw s' R M) in E as (t & S & F & Q). exists t. split; [exact S|]. split; [rewrite F; apply (w_other utf8 s (PBytes raw) m R); exact M|]. intros _ A. apply Q, A.
  - assert (X : s' = s) by (destruct v; congruence). subst. exists []. split; [apply same_refl|]. split; [apply w_unread, R|]. intros _ _. apply a_unread, R.
Qed.
Lemma registered_same : forall s t s' svc a, same s t s' -> registered s svc a <-> registered s' svc a.
Proof. intros s t s' svc a S. unfold registered. rewrite (sm_services _ _ _ S). tauto. Qed.
Lemma called_same : forall s t s' v c, same s t s' -> called utf8 s' v c -> called utf8 s v c.
Proof.
  intros s t s' v c S C. assert (M : forall m, for_me s m <-> for_me s' m) by (intros m; unfold for_me; rewrite (sm_me _ _ _ S); tauto).
  assert (G : forall svc a, registered s svc a <-> registered s' svc a) by (intros; eapply registered_same, S). destruct C.
  - apply w_unread; assumption.
  - eapply w_other; [eassumption|]. rewrite M. assumption.
  - eapply w_inner; [eassumption| |assumption]. rewrite M. assumption.
  - eapply w_unknown; [eassumption| |assumption|]. rewrite M; assumption. intros a. rewrite G. auto.
  - eapply w_message; try eassumption. rewrite M; assumption. rewrite G. assumption.
  - eapply w_error; try eassumption. rewrite M; assumption. rewrite G. assumption.
Qed.
Lemma relay_all_same : forall l s prev s', relay_all utf8 serve s prev l = Val s' -> exists t cs, same s t s' /\ Forall2 (called utf8 s) l cs /\ filter is_handle t = concat cs.
Proof.
  induction l as [|v l IH]; intros s prev s' E; cbn [relay_all] in E.
  - injection E as <-. exists [], []. split; [apply same_refl|]. split; [constructor|reflexivity].
  - destruct (relay_one utf8 serve s prev v) as [s1|x] eqn:R; [|discriminate E]. cbn [bind] in E. apply relay_one_same in R as (t & S & C & _). apply IH in E as (u & cs & S1 & F & X).
    exists (t ++ u), (filter is_handle t :: cs). split; [apply (same_trans _ _ _ _ _ S S1)|]. split; [|rewrite filter_app, X; reflexivity]. constructor; [exact C|]. clear -F S serve. induction F; [constructor|]. constructor; [eapply called_same; eassumption|assumption].
Qed.
(** ** Messages that stop everything *)
Lemma stuck_raises : forall s prev v m, read_message utf8 v = Some m -> stuck utf8 (c_me s) m -> exists e, relay_one utf8 serve s prev v = Raise e.
Proof.
  intros s prev v m R K. unfold relay_one. rewrite R. assert (B : exists raw, v = PBytes raw) by (unfold read_message in R; destruct v; try discriminate R; eexists; reflexivity). destruct B as (raw & ->).
  destruct K as [D N|x D V P|n l D V P A B|n l D V P A|n f l D V P A|x D V P|D N A|sn x D N A B P].
  - rewrite D. cbn [shown]. destruct (bytes_eqb_spec none_text (c_me s)) as [X|X]; [congruence|]. unfold pass_on. rewrite D. eexists; reflexivity.
  - rewrite D. rewrite (proj2 (bytes_eqb_eq (c_me s) (c_me s)) eq_refl). unfold handle_msg. rewrite V. cbn [is_text]. rewrite (proj2 (bytes_eqb_eq _ _) eq_refl). unfold handle_event. rewrite P. eexists; reflexivity.
  - rewrite D. rewrite (proj2 (bytes_eqb_eq (c_me s) (c_me s)) eq_refl). unfold handle_msg. rewrite V. cbn [is_text]. rewrite (proj2 (bytes_eqb_eq _ _) eq_refl). unfold handle_event. rewrite P. cbn [bind fst snd].
    destruct (is_text n "Link") eqn:X; [apply is_text_eq in X; contradiction|]. destruct (is_text n "Unlink") eqn:Y; [apply is_text_eq in Y; contradiction|]. eexists; reflexivity.
  - rewrite D. rewrite (proj2 (bytes_eqb_eq (c_me s) (c_me s)) eq_refl). unfold handle_msg. rewrite V. cbn [is_text]. rewrite (proj2 (bytes_eqb_eq _ _) eq_refl). unfold handle_event. rewrite P. cbn [bind fst snd].
    destruct l as [|a [|b l]]; [| |cbn [length] in A; lia]; destruct (is_text n "Link"), (is_text n "Unlink"); eexists; reflexivity.
  - rewrite D. rewrite (proj2 (bytes_eqb_eq (c_me s) (c_me s)) eq_refl). unfold handle_msg. rewrite V. cbn [is_text]. rewrite (proj2 (bytes_eqb_eq _ _) eq_refl). unfold handle_event. rewrite P. cbn [bind fst snd].
    destruct (read_not f A) as (x & X). destruct l as [|b l]; unfold on_link, on_unlink; rewrite ?X; destruct (is_text n "Link"), (is_text n "Unlink"); eexists; reflexivity.
  - rewrite D. rewrite (proj2 (bytes_eqb_eq (c_me s) (c_me s)) eq_refl). unfold handle_msg. rewrite V. change (is_text (Some (str "_sack")) "_event") with false. change (is_text (Some (str "_sack")) "_sack") with true. unfold handle_sack. rewrite P. eexists; reflexivity.
  - rewrite D. rewrite (proj2 (bytes_eqb_eq (c_me s) (c_me s)) eq_refl). unfold handle_msg. destruct (not_inner m N) as (X & Y). rewrite X, Y, A. eexists; reflexivity.
  - rewrite D. rewrite (proj2 (bytes_eqb_eq (c_me s) (c_me s)) eq_refl). unfold handle_msg. destruct (not_inner m N) as (X & Y). rewrite X, Y, A. cbn [need bind]. replace (0 <=? sn) with false by lia. unfold handle_error. rewrite P. eexists; reflexivity.
Qed.
Lemma stuck_batch : forall l s prev v m, In v l -> read_message utf8 v = Some m -> stuck utf8 (c_me s) m -> exists e, relay_all utf8 serve s prev l = Raise e.
Proof.
  induction l as [|w l IH]; intros s prev v m I R K; [destruct I|]. destruct I as [->|I]; cbn [relay_all].
  - destruct (stuck_raises s prev v m R K) as (e & ->). exists e. reflexivity.
  - destruct (relay_one utf8 serve s prev w) as [s1|e] eqn:E; [|exists e; reflexivity]. cbn [bind]. apply relay_one_same in E as (t & S & _). apply (IH s1 prev v m I R). rewrite (sm_me _ _ _ S). exact K.
Qed.
(** ** Whole calls *)
Lemma handleRelay_inv : forall s prev ok ask s', handleRelay utf8 serve s prev ok ask = Val s' ->
  ok = true /\ exists a l v msgs s1 l1 t cs, parse_address prev = Some a /\ kget (show_address a) (c_links s) = Some l /\ kget (pa_net a) (c_verifiers s) = Some v /\
  ask v (show_address a) (k_rx l) = Some msgs /\ same s t s1 /\ Forall2 (called utf8 s) msgs cs /\ filter is_handle t = concat cs /\
  kget (show_address a) (c_links s1) = Some l1 /\ k_rx l1 = k_rx l /\ s' = set_link s1 (show_address a) (PLink (k_rx l + zlen msgs) (k_tx l1) (k_reach l1) (k_sack l1)).
Proof.
  intros s prev ok ask s' E. unfold handleRelay in E. destruct (read_address prev) as [a|x] eqn:R; [|discriminate E]. cbn [bind] in E. apply read_iff in R.
  destruct (kget (show_address a) (c_links s)) as [l|] eqn:G; [|discriminate E]. destruct (kget (pa_net a) (c_verifiers s)) as [v|] eqn:V; [|discriminate E].
  destruct (ask v (show_address a) (k_rx l)) as [msgs|] eqn:A; [|discriminate E]. cbn [need bind] in E. destruct ok; [|discriminate E]. cbn [negb] in E. split; [reflexivity|].
  destruct (relay_all utf8 serve s (show_address a) msgs) as [s1|x] eqn:RA; [|discriminate E]. cbn [bind] in E. destruct (kget (show_address a) (c_links s1)) as [l1|] eqn:G1; [|discriminate E]. cbn [need bind] in E. injection E as <-.
  apply relay_all_same in RA as (t & cs & S & F & X). destruct (sm_rx _ _ _ S _ _ G1) as (l0 & G0 & RX). rewrite G in G0. injection G0 as <-.
  exists a, l, v, msgs, s1, l1, t, cs. do 9 (split; [assumption|]). rewrite RX. reflexivity.
Qed.
End HANDLE.

Lemma propagate_same : forall evt values ts s s', propagate s evt values ts = Val s' -> exists t, same s t s' /\ filter is_handle t = [].
Proof.
  induction ts as [|x ts IH]; intros s s' E; cbn [propagate] in E.
  - injection E as <-. exists []. split; [apply same_refl|reflexivity].
  - destruct (read_address x) as [d|e]; [|discriminate E]. cbn [bind] in E.
    destruct (send_message s (show_address d) (write_message (c_me s) (show_address d) (Some (str "_event")) 0 (Some (write_event evt values)))) as [s1|e] eqn:SD; [|discriminate E]. cbn [bind] in E.
    apply send_same in SD as (_ & n & S). apply IH in E as (t & S1 & F). eexists. split; [apply (same_trans _ _ _ _ _ S S1)|]. exact F.
Qed.

(** ** What holds after every history *)
Definition good_key (s : bmc) (k : bytes) : Prop :=
  exists a, parse_address k = Some a /\ show_address a = k /\ pa_proto a <> [] /\ pa_net a <> [] /\ pa_contract a <> [] /\ In (pa_net a) (map fst (c_verifiers s)).
Record inv (s : bmc) : Prop := {
  in_num : numbered s;
  in_keys : forall k, linked s k -> good_key s k;
  in_ver : NoDup (map fst (c_verifiers s));
  in_own : ~ In (c_net s) (map fst (c_verifiers s)) }.
Lemma inv_same : forall s t s', same s t s' -> inv s -> inv s'.
Proof.
  intros s t s' S [N K V O]. constructor.
  - apply (sm_num _ _ _ S), N.
  - intros k I. unfold linked in I. rewrite (sm_keys _ _ _ S) in I. destruct (K k I) as (a & A). exists a. rewrite (sm_verifiers _ _ _ S). exact A.
  - rewrite (sm_verifiers _ _ _ S). exact V.
  - rewrite (sm_verifiers _ _ _ S), (sm_net _ _ _ S). exact O.
Qed.
Lemma valid_good : forall s a, valid_address s = Val a -> parse_address (show_address a) = Some a /\ pa_proto a <> [] /\ pa_net a <> [] /\ pa_contract a <> [].
Proof.
  intros s a E. split; [eapply show_parse, valid_parse, E|]. unfold valid_address in E. destruct (read_address s) as [x|x]; [|discriminate E]. cbn [bind] in E.
  destruct (pa_proto x) eqn:A, (pa_net x) eqn:B, (pa_contract x) eqn:C; try discriminate E. injection E as <-. rewrite A, B, C. repeat split; discriminate.
Qed.
Lemma addLink_inv : forall s link s', addLink s link = Val s' -> exists a t s1, valid_address link = Val a /\ In (pa_net a) (map fst (c_verifiers s)) /\ ~ linked s (show_address a) /\
  s1 = emit (set_link s (show_address a) new_link) (OLinked (show_address a)) /\ same s1 t s' /\ filter is_handle t = [].
Proof.
  intros s link s' E. unfold addLink in E. destruct (valid_address link) as [a|x] eqn:V; [|discriminate E]. cbn [bind] in E. destruct (kget (pa_net a) (c_verifiers s)) as [v|] eqn:G; [|discriminate E].
  destruct (kget (show_address a) (c_links s)) as [l|] eqn:K; [discriminate E|]. destruct (existsb (Z.eqb 44) (show_address a)); [discriminate E|]. apply propagate_same in E as (t & S & F). exists a, t. eexists. split; [reflexivity|].
  split; [apply kget_some; exists v; exact G|]. split; [apply kget_none, K|]. split; [reflexivity|]. split; assumption.
Qed.
Lemma keys_new : forall s k l, ~ linked s k -> map fst (c_links (set_link s k l)) = map fst (c_links s) ++ [k].
Proof. intros s k l N. cbn [set_link with_links c_links]. rewrite kput_new by exact N. rewrite map_app. reflexivity. Qed.
Lemma nodup_snoc : forall (l : list bytes) k, NoDup l -> ~ In k l -> NoDup (l ++ [k]).
Proof.
  intros l k N I. induction N as [|x l NI N IH]; cbn [app]; [constructor; [intros []|constructor]|]. constructor.
  - intros X. apply in_app_iff in X as [X|[X|[]]]; [contradiction|]. apply I. left. symmetry. exact X.
  - apply IH. intros X. apply I. right. exact X.
Qed.
Lemma numbered_new : forall s k, ~ linked s k -> numbered s -> numbered (emit (set_link s k new_link) (OLinked k)).
Proof.
  intros s k NL [K S M N]. constructor.
  - change (NoDup (map fst (c_links (set_link s k new_link)))). rewrite keys_new by exact NL. apply nodup_snoc; assumption.
  - intros x. change (c_out (emit (set_link s k new_link) (OLinked k))) with (c_out s ++ [OLinked k]). change (c_links (emit (set_link s k new_link) (OLinked k))) with (kput k new_link (c_links s)). rewrite sent_app. cbn [count].
    destruct (bytes_eqb_spec k x) as [->|NE].
    + exists 0. split; [lia|]. split; [reflexivity|]. intros l E. rewrite kput_same in E. injection E as <-. reflexivity.
    + destruct (S x) as (n & A & B & C). exists n. split; [exact A|]. split; [exact B|]. intros l E. rewrite kput_other in E by congruence. apply C, E.
  - intros x I. change (In x (map fst (c_links (set_link s k new_link)))) in I. rewrite keys_new in I by exact NL. cbn [emit set_link with_links c_out]. apply in_app_iff. apply in_app_iff in I as [I|[<-|[]]]; [left; apply M, I|right; left; reflexivity].
  - intros x I. cbn [emit set_link with_links c_out] in I |- *. rewrite sent_app. cbn [count]. destruct (bytes_eqb_spec k x) as [->|NE]; [reflexivity|]. apply N. intros X. apply I, in_app_iff. left. exact X.
Qed.
Lemma numbered_del : forall s k, numbered s -> numbered (with_links s (kdel k (c_links s))).
Proof.
  intros s k [K S M N]. constructor.
  - apply kdel_nodup, K.
  - intros x. destruct (S x) as (n & A & B & C). exists n. split; [exact A|]. split; [exact B|]. intros l E. cbn [with_links c_links] in E. rewrite kdel_get in E by exact K. destruct (bytes_eqb x k); [discriminate E|]. apply C, E.
  - intros x I. apply M. unfold linked in *. cbn [with_links c_links] in I. apply (kdel_keys k), I.
  - exact N.
Qed.
Lemma has_link_iff : forall net l b, has_link net l = Val b -> if b then exists k, In k (map fst l) /\ in_net net k else forall k, In k (map fst l) -> ~ in_net net k.
Proof.
  intros net l b. induction l as [|[k x] l IH]; cbn [has_link]; [intros E; injection E as <-; intros k []|]. destruct (read_address k) as [a|e] eqn:R; [|discriminate]. cbn [bind map fst].
  destruct (bytes_eqb_spec (pa_net a) net) as [N|N].
  - intros E. injection E as <-. exists k. split; [left; reflexivity|apply (in_net_read net k a R), N].
  - intros E. apply IH in E. destruct b; [destruct E as (r & I & J); exists r; split; [right; exact I|exact J]|]. intros r [<-|I]; [|apply E, I]. intros X. apply (in_net_read net k a R) in X. contradiction.
Qed.
Lemma put_new_inv : forall k v l x, put_new k v l = Val x -> x = kput k v l.
Proof. intros k v l x E. unfold put_new in E. destruct (existsb (Z.eqb 44) k); [discriminate E|congruence]. Qed.
Lemma inv_install : forall net addr s, install net addr = Val s -> inv s.
Proof.
  intros net addr s E. unfold install in E. destruct (net_ok net); [|discriminate E]. injection E as <-. constructor; cbn.
  - constructor; cbn; [constructor| | |].
    + intros k. exists 0. split; [lia|]. split; [reflexivity|]. intros l X. discriminate X.
    + intros k [].
    + reflexivity.
  - intros k [].
  - constructor.
  - intros [].
Qed.
