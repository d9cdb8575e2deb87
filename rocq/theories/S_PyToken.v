(** What the token service should do, told in terms of what can be asked for: what a user can use and has locked, which transfers are
    open, what was sent and paid. *)
From Coq Require Import String Ascii ZArith List Bool.
From Verif Require Import Base GoStr M_JMap M_PyBmv M_PyBmc M_PyToken.
Import ListNotations.
Open Scope Z_scope.
Local Notation bytes := (list Z).

Definition usable (s : tstate) (u n : bytes) : Z := fst (balance s u n).
Definition locked (s : tstate) (u n : bytes) : Z := snd (balance s u n).
Definition is_open (s : tstate) (sn : Z) (p : pend) : Prop := In (sn, p) (t_pending s).
Definition registered (s : tstate) (n : bytes) : Prop := exists a, In (n, a) (t_addr s).
(** What user [u] has in open transfers of [n] *)
Fixpoint owed (l : list (Z * pend)) (u n : bytes) : Z :=
  match l with [] => 0 | (_, p) :: r => (if bytes_eqb (q_from p) u && bytes_eqb (q_name p) n then q_value p else 0) + owed r u n end.
(** Everything the users have of [n], usable or locked *)
Fixpoint worth_of (l : list ((bytes * bytes) * (Z * Z))) (n : bytes) : Z :=
  match l with [] => 0 | (k, b) :: r => (if bytes_eqb (snd k) n then fst b + snd b else 0) + worth_of r n end.
Definition worth (s : tstate) (n : bytes) : Z := worth_of (t_bal s) n.
(** [s'] has the accounts of [s], but for [u] and [n], where [du] more is usable and [dl] more locked *)
Definition moved (s s' : tstate) (u n : bytes) (du dl : Z) : Prop :=
  usable s' u n = usable s u n + du /\ locked s' u n = locked s u n + dl /\
  forall u' n', u' <> u \/ n' <> n -> usable s' u' n' = usable s u' n' /\ locked s' u' n' = locked s u' n'.
Definition same_accounts (s s' : tstate) : Prop := forall u n, usable s' u n = usable s u n /\ locked s' u n = locked s u n.
Definition same_tokens (s s' : tstate) : Prop := t_addr s' = t_addr s /\ t_names s' = t_names s.
Definition same_open (s s' : tstate) : Prop := t_sn s' = t_sn s /\ forall k p, is_open s' k p <-> is_open s k p.
Definition said (s s' : tstate) (l : list tout) : Prop := t_out s' = t_out s ++ l.
(** [n] is the first of the names, in the order of registration, under which [token] is known *)
Definition first_named (s : tstate) (token n : bytes) : Prop :=
  exists a b, t_names s = a ++ n :: b /\ kget n (t_addr s) = Some token /\ forall m, In m a -> kget m (t_addr s) <> Some token.
(** The accounts and lists are in order *)
Definition tidy (s : tstate) : Prop :=
  NoDup (map fst (t_pending s)) /\ (forall k p, is_open s k p -> 1 <= k <= t_sn s /\ 0 <= q_value p) /\ 0 <= t_sn s /\
  NoDup (map fst (t_addr s)) /\ NoDup (t_names s) /\ (forall n, In n (t_names s) -> registered s n) /\ NoDup (map fst (t_bal s)).
(** What each call does when it is not refused *)
Inductive does (addr_of : bytes -> option bytes) (s : tstate) : tcall -> tstate -> Prop :=
| D_register : forall n a s', ~ registered s n -> same_accounts s s' -> same_open s s' -> said s s' [] ->
    (forall m b, In (m, b) (t_addr s') <-> In (m, b) (t_addr s) \/ m = n /\ b = a) -> t_names s' = t_names s ++ [n] ->
    does addr_of s (KRegister (t_owner s) n a) s'
| D_unregister : forall n s', registered s n -> same_accounts s s' -> same_open s s' -> said s s' [] -> t_addr s' = t_addr s ->
    (exists a b, t_names s = a ++ b /\ ~ In n a /\ t_names s' = a ++ tl b /\ (hd_error b = Some n \/ b = [])) ->
    does addr_of s (KUnregister (t_owner s) n) s'
| D_deposit : forall token from v n s', 0 <= v -> n <> [] -> first_named s token n -> moved s s' from n v 0 -> same_open s s' -> said s s' [] -> same_tokens s s' ->
    does addr_of s (KFallback token from v) s'
| D_reclaim : forall u n v a s', 0 <= v <= usable s u n -> kget n (t_addr s) = Some a -> moved s s' u n (- v) 0 -> same_open s s' -> said s s' [TPay a u v] -> same_tokens s s' ->
    does addr_of s (KReclaim u n v true) s'
| D_transfer : forall u n to v a s', 0 <= v <= usable s u n -> registered s n -> valid_address to = Val a -> moved s s' u n (- v) v ->
    t_sn s' = t_sn s + 1 -> (forall k p, is_open s' k p <-> is_open s k p \/ k = t_sn s + 1 /\ p = Pend u (pa_contract a) n v) ->
    said s s' [TSend (t_sn s + 1) (pa_net a) (JReq (pa_contract a) n v); TStart u n (t_sn s + 1) v (pa_contract a)] -> same_tokens s s' ->
    does addr_of s (KTransfer u n to v true) s'
| D_credit : forall net sn to n v u s', addr_of to = Some u -> registered s n -> moved s s' u n v 0 -> same_open s s' -> said s s' [TSend sn net (JRes 0)] -> same_tokens s s' ->
    does addr_of s (KMessage (t_bmc s) net sn (JReq to n v) true) s'
| D_reject : forall net sn to n v u s', addr_of to = Some u -> ~ registered s n -> same_accounts s s' -> same_open s s' -> said s s' [TSend sn net (JRes (-1))] -> same_tokens s s' ->
    does addr_of s (KMessage (t_bmc s) net sn (JReq to n v) true) s'
| D_delivered : forall net sn p ok s', is_open s sn p -> moved s s' (q_from p) (q_name p) 0 (- q_value p) -> t_sn s' = t_sn s ->
    (forall k q, is_open s' k q <-> is_open s k q /\ k <> sn) -> said s s' [TEnd sn 0] -> same_tokens s s' ->
    does addr_of s (KMessage (t_bmc s) net sn (JRes 0) ok) s'
| D_failed : forall net sn p code ok s', code <> 0 -> is_open s sn p -> moved s s' (q_from p) (q_name p) (q_value p) (- q_value p) -> t_sn s' = t_sn s ->
    (forall k q, is_open s' k q <-> is_open s k q /\ k <> sn) -> said s s' [TEnd sn code] -> same_tokens s s' ->
    does addr_of s (KMessage (t_bmc s) net sn (JRes code) ok) s'
| D_unknown : forall net sn type s', same_accounts s s' -> same_open s s' -> said s s' [TSend sn net (JOther (str "res_unknown_type"))] -> same_tokens s s' ->
    does addr_of s (KMessage (t_bmc s) net sn (JOther type) true) s'
| D_error : forall sn p s', is_open s sn p -> moved s s' (q_from p) (q_name p) (q_value p) (- q_value p) -> t_sn s' = t_sn s ->
    (forall k q, is_open s' k q <-> is_open s k q /\ k <> sn) -> said s s' [] -> same_tokens s s' ->
    does addr_of s (KError (t_bmc s) sn) s'.
(** By how much a call that is not refused changes what there is of [n] *)
Definition brings (addr_of : bytes -> option bytes) (s : tstate) (c : tcall) (n : bytes) : Z :=
  let at_ := fun (m : bytes) (v : Z) => if bytes_eqb m n then v else 0 in
  match c with
  | KFallback token _ v => match name_of s token with Some m => at_ m v | None => 0 end
  | KReclaim _ m v _ => at_ m (- v)
  | KMessage _ _ _ (JReq _ m v) _ => if existsb (fun x => bytes_eqb (fst x) m) (t_addr s) then at_ m v else 0
  | KMessage _ _ sn (JRes code) _ => if code =? 0 then fold_right Z.add 0 (map (fun x => if fst x =? sn then at_ (q_name (snd x)) (- q_value (snd x)) else 0) (t_pending s)) else 0
  | _ => 0
  end.
Definition accepted (addr_of : bytes -> option bytes) (s : tstate) (c : tcall) : bool := match tcall_result addr_of s c with Val _ => true | Raise _ => false end.
Fixpoint brought (addr_of : bytes -> option bytes) (s : tstate) (cs : list tcall) (n : bytes) : Z :=
  match cs with [] => 0 | c :: r => (if accepted addr_of s c then brings addr_of s c n else 0) + brought addr_of (tstep addr_of s c) r n end.
(** Requests of the other side that give something *)
Definition gives (c : tcall) : Prop := match c with KMessage _ _ _ (JReq _ _ v) _ => 0 <= v | _ => True end.
Definition no_request (c : tcall) : Prop := match c with KMessage _ _ _ (JReq _ _ _) _ => False | _ => True end.
(** Tokens of the contract [a] that came in and went out *)
Fixpoint came (addr_of : bytes -> option bytes) (s : tstate) (cs : list tcall) (a : bytes) : Z :=
  match cs with
  | [] => 0
  | c :: r => (match c with KFallback t _ v => if bytes_eqb t a && accepted addr_of s c then v else 0 | _ => 0 end) + came addr_of (tstep addr_of s c) r a
  end.
Fixpoint paid (l : list tout) (a : bytes) : Z :=
  match l with [] => 0 | TPay t _ v :: r => (if bytes_eqb t a then v else 0) + paid r a | _ :: r => paid r a end.
(** What the users have of the token [a], under all its names *)
Fixpoint worth_token (addrs : list (bytes * bytes)) (s : tstate) (a : bytes) : Z :=
  match addrs with [] => 0 | (n, b) :: r => (if bytes_eqb b a then worth s n else 0) + worth_token r s a end.
(** Numbers of the transfers begun, and of those ended by an answer *)
Fixpoint begun (l : list tout) : list Z := match l with [] => [] | TStart _ _ sn _ _ :: r => sn :: begun r | _ :: r => begun r end.
Fixpoint ended (l : list tout) : list Z := match l with [] => [] | TEnd sn _ :: r => sn :: ended r | _ :: r => ended r end.
