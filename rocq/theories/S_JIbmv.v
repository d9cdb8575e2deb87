(** Specification vocabulary for the ICON block verifier: quorums, certified chains of blocks, messages among events. *)
From Coq Require Import String Ascii ZArith List Bool.
From Verif Require Import Base M_IntConv M_Rlp S_Rlp S_JBmv M_JMpt S_JMpt M_Wire M_JIcon.
Import ListNotations.
Open Scope Z_scope.

(** What a validator signs for block [block] at [height]: a precommit (type 1). *)
Definition precommit (height round : Z) (block : list Z) (part : option partset) (time : Z) : list Z :=
  rlp_write (RList [int_item height; int_item round; int_item 1; RBytes block;
    match part with Some p => RList [int_item (ps_count p); opt_item (ps_hash p)] | None => RNull end; int_item time]).
Definition validator_list (vals : list (list Z)) : list Z := rlp_write (RList (map RBytes vals)).

Section CHAIN.
Context (H : list Z -> list Z) (recover : list Z -> list Z -> option (list Z)).

(** [a] voted for the block, with some time, round and part set, in a signed message. *)
Definition voted_for (height : Z) (block a : list Z) : Prop :=
  exists round part time sig, recover (H (precommit height round block part time)) sig = Some a.
(** Each vote is of another validator, and they are more than two thirds. *)
Definition quorum (vals : list (list Z)) (height : Z) (block : list Z) (vs : ivotes) : Prop :=
  exists voters, NoDup voters /\ incl voters vals /\ 2 * zlen vals < 3 * zlen voters /\
    Forall2 (fun v a => exists sig, iv_sig v = Some sig /\ recover (H (precommit height (is_round vs) block (is_part vs) (iv_time v))) sig = Some a) (is_items vs) voters.
(** A block the validators [vals] certified at [height]; it names the next validators [vals'] by hash. *)
Definition certified (vals : list (list Z)) (height : Z) (u : iupdate) (block : list Z) (vals' : list (list Z)) : Prop :=
  exists h vs, iu_header u = Some h /\ iu_votes u = Some vs /\ ih_height h = height /\ block = H (header_bytes h) /\ quorum vals height block vs /\
    ih_nextVals h = Some (H (validator_list vals')) /\
    (if bytes_eqb (H (validator_list vals)) (H (validator_list vals')) then vals' = vals else iu_next u = Some (map Some vals')).
(** Blocks [us] with hashes [bs] after [height], each certified by the validators its predecessor named. *)
Inductive chain : Z -> list (list Z) -> list iupdate -> list (list Z) -> list (list Z) -> Prop :=
| c_nil : forall height vals, chain height vals [] [] vals
| c_cons : forall height vals u b vals1 us bs vals2, certified vals (height + 1) u b vals1 -> chain (height + 1) vals1 us bs vals2 ->
    chain height vals (u :: us) (b :: bs) vals2.
(** More than a third of [vals] voted for two blocks of one height. *)
Definition double_voters (vals : list (list Z)) (height : Z) (b b' : list Z) : Prop :=
  exists bad, NoDup bad /\ incl bad vals /\ zlen vals < 3 * zlen bad /\ Forall (fun a => voted_for height b a /\ voted_for height b' a) bad.
End CHAIN.
(** Bytes are bytes and sizes below 2^63, as in all data that was read. *)
Definition proper_vals (vals : list (list Z)) : Prop := Forall bytes_ok vals /\ short (validator_list vals).
Definition proper (u : iupdate) : Prop :=
  (forall h, iu_header u = Some h -> rlp_ok (iheader_item h) /\ short (header_bytes h)) /\
  (forall vals, iu_next u = Some (map Some vals) -> proper_vals vals).
Definition begins {A} (l m : list A) : Prop := exists r, m = l ++ r.

(** Event logs: [e] is message [n] with payload [m] of the contract [account] for the message center [bmc]. *)
Definition message_event (show : list Z -> list Z) (account bmc : list Z) (e : evlog) (n : Z) (m : list Z) : Prop :=
  exists a args num more more', el_addr e = Some a /\ show a = account /\ num <> [] /\
    el_indexed e = (str "Message" ++ 40 :: args) :: bmc :: num :: more /\ BigIntSetBytes num = n /\ el_data e = m :: more'.
(** The messages among the events are numbered from [n] on, and are [ms]. *)
Inductive messages (show : list Z -> list Z) (account bmc : list Z) : list evlog -> Z -> list (list Z) -> Prop :=
| ms_nil : forall n, messages show account bmc [] n []
| ms_other : forall e es n ms, (forall k m, ~ message_event show account bmc e k m) -> messages show account bmc es n ms -> messages show account bmc (e :: es) n ms
| ms_next : forall e es n m ms, message_event show account bmc e n m -> messages show account bmc es (n + 1) ms -> messages show account bmc (e :: es) n (m :: ms).
(** Event [e] is one of the receipts in tree [t], in the receipt itself or in the tree of its logs. *)
Definition occurs (H : list Z -> list Z) (emb : trie -> bool) (t : trie) (e : evlog) : Prop :=
  exists i p b rc, at_key t (bytesToNibbles (encodeKey i)) p b /\ fromBytes readReceipt b = Some rc /\
    (In e (rc_logs rc) \/
     exists t2 i2 p2 b2, good t2 /\ rc_logsHash rc = Some (root_of H emb t2) /\ at_key t2 (bytesToNibbles (encodeKey i2)) p2 b2 /\ fromBytes readEventLog b2 = Some e).
