(** Specification vocabulary for the ICON block verifier of the Python contracts: quorums, certified chains, messages among events. *)
From Coq Require Import String Ascii ZArith List Bool.
From Verif Require Import Base M_IntConv M_Rlp M_JMpt S_JMpt M_PyRlp M_PyBmv.
Import ListNotations.
Open Scope Z_scope.

Section CHAIN.
Context (H : list Z -> list Z) (recover : list Z -> list Z -> option (list Z)).
(** What a validator signs: height, round, the type precommit (1), block, part set and time. *)
Definition signed (height : Z) (round : pyval) (block : list Z) (part time : pyval) : list Z :=
  rlp_encode (PList [PInt height; round; PInt 1; PBytes block; part; time]).
Definition voted_for (height : Z) (block a : list Z) : Prop :=
  exists round part time sig, recover (H (signed height round block part time)) sig = Some a.
(** Each vote is of another validator, and they are more than two thirds. *)
Definition quorum (vals : list (list Z)) (height : Z) (block : list Z) (vs : pvotes) : Prop :=
  exists voters, NoDup voters /\ incl voters vals /\ 2 * zlen vals < 3 * zlen voters /\
    Forall2 (fun v a => exists sig, snd v = PBytes sig /\ recover (H (signed height (pt_round vs) block (pt_part vs) (fst v))) sig = Some a) (pt_items vs) voters.
(** A block the validators [vals] certified at [height]; it names the next validators [vals'] by hash. *)
Definition certified (vals : pvals) (height : Z) (u : pupdate) (block : list Z) (vals' : pvals) : Prop :=
  exists h vs, pu_header u = Some h /\ pu_votes u = Some vs /\ ph_height h = Some height /\ block = H (ph_bytes h) /\ quorum (pv_addrs vals) height block vs /\
    ph_next h = Some (H (pv_bytes vals')) /\
    (if bytes_eqb (H (pv_bytes vals)) (H (pv_bytes vals')) then vals' = vals else pu_next u = Some vals').
Inductive chain : Z -> pvals -> list pupdate -> list (list Z) -> pvals -> Prop :=
| c_nil : forall height vals, chain height vals [] [] vals
| c_cons : forall height vals u b vals1 us bs vals2, certified vals (height + 1) u b vals1 -> chain (height + 1) vals1 us bs vals2 ->
    chain height vals (u :: us) (b :: bs) vals2.
(** More than a third of [vals] voted for two blocks of one height. *)
Definition double_voters (vals : list (list Z)) (height : Z) (b b' : list Z) : Prop :=
  exists bad, NoDup bad /\ incl bad vals /\ zlen vals < 3 * zlen bad /\ Forall (fun a => voted_for height b a /\ voted_for height b' a) bad.
End CHAIN.
Definition begins {A} (l m : list A) : Prop := exists r, m = l ++ r.

Section EVENTS.
Context (H : list Z -> list Z) (utf8 : list Z -> bool) (from_bytes_ : list Z -> option (list Z)) (show : list Z -> list Z).
(** The validators, the headers are what their bytes say. *)
Definition true_vals (v : pvals) : Prop := read_validators utf8 from_bytes_ (pv_bytes v) = Some v.
Definition true_update (u : pupdate) : Prop :=
  (forall h, pu_header u = Some h -> read_header utf8 (ph_bytes h) = Some h) /\ (forall v, pu_next u = Some v -> true_vals v).

(** [e] was emitted by [contract]. *)
Definition emitted_by (e : pevent) (contract : list Z) : Prop := exists b a, pe_addr e = PBytes b /\ from_bytes_ b = Some a /\ show a = contract.
(** The numbers of messages: integers, and booleans. *)
Definition number (v : pyval) (n : Z) : Prop := v = PInt n \/ exists b, v = PBool b /\ n = if b then 1 else 0.
(** [e] is message [n] with payload [m] of [contract] for [next]. *)
Definition message_event (contract : list Z) (e : pevent) (next : pyval) (n : Z) (m : pyval) : Prop :=
  emitted_by e contract /\ pe_method e = str "Message" /\ exists num more, pe_params e = next :: num :: m :: more /\ number num n.
(** The events are acceptable from number [n] on, and the messages for [bmc] among them are [ms].  A message for another center passes
    only with the number that is next. *)
Inductive messages (contract bmc : list Z) : list pevent -> Z -> list pyval -> Prop :=
| ms_nil : forall n, messages contract bmc [] n []
| ms_other : forall e es n ms other, emitted_by e other -> other <> contract \/ pe_method e <> str "Message" ->
    messages contract bmc es n ms -> messages contract bmc (e :: es) n ms
| ms_elsewhere : forall e es n ms next m, message_event contract e next n m -> next <> PStr bmc ->
    messages contract bmc es n ms -> messages contract bmc (e :: es) n ms
| ms_next : forall e es n m ms, message_event contract e (PStr bmc) n m ->
    messages contract bmc es (n + 1) ms -> messages contract bmc (e :: es) n (m :: ms).
(** Event [e] is in the tree of logs of a receipt in tree [t]. *)
Definition occurs (emb : trie -> bool) (t : trie) (e : pevent) : Prop :=
  exists i p b t2 i2 p2 b2, at_key t (bytesToNibbles (encodeKey i)) p b /\ read_receipt utf8 from_bytes_ b = Some (Some (root_of H emb t2)) /\
    at_key t2 (bytesToNibbles (encodeKey i2)) p2 b2 /\ read_event utf8 from_bytes_ b2 = Some e.
End EVENTS.
