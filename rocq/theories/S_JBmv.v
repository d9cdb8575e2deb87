(** Independent specification of the source chain that the BTP block verifier follows (ICON's BTP block format),
    and of a quorum of validators. *)
From Coq Require Import ZArith List.
From Verif Require Import Base M_IntConv M_Rlp S_Rlp S_Mbt.
Import ListNotations.
Open Scope Z_scope.

(** A hash with digests of 32 bytes. *)
Definition hash32 (H : list Z -> list Z) : Prop := digest_size H 32 /\ forall x, bytes_ok (H x).
Definition short (b : list Z) : Prop := zlen b < 2 ^ 63.
Definition int_item (z : Z) : rlp := RBytes (BigIntToBytes z).
Definition opt_item (o : option (list Z)) : rlp := match o with None => RNull | Some b => RBytes b end.

(** One network's part of a block: network id, update number (first message number * 2 + update flag), hash of
    this network's previous section, number and Merkle root of the messages. *)
Record nsection := NS { s_nid : Z; s_upd : Z; s_prev : option (list Z); s_cnt : Z; s_root : option (list Z) }.
Definition ns_items (s : nsection) : rlp :=
  RList [int_item (s_nid s); int_item (s_upd s); opt_item (s_prev s); int_item (s_cnt s); opt_item (s_root s)].
Definition ns_enc (s : nsection) : list Z := rlp_write (ns_items s).

(** Merkle tree over the sections of all networks of one type *)
Inductive nstree := NLeaf (s : nsection) | NNode (l r : nstree).
Fixpoint nst_root (H : list Z -> list Z) (t : nstree) : list Z :=
  match t with NLeaf s => H (ns_enc s) | NNode l r => H (nst_root H l ++ nst_root H r) end.
Fixpoint in_tree (s : nsection) (t : nstree) : Prop :=
  match t with NLeaf s' => s = s' | NNode l r => in_tree s l \/ in_tree s r end.

(** What the validators sign: network, network type, height, round, next validators and all sections. *)
Definition nts_items (ctxHash : option (list Z)) (root : list Z) : rlp := RList [opt_item ctxHash; RBytes root].
Definition dec_items (src : list Z) (ntid height round : Z) (h : list Z) : rlp :=
  RList [RBytes src; int_item ntid; int_item height; int_item round; RBytes h].
Definition dec_hash (H : list Z -> list Z) (src : list Z) (ntid height round : Z) (ctxHash : option (list Z)) (root : list Z) : list Z :=
  H (rlp_write (dec_items src ntid height round (H (rlp_write (nts_items ctxHash root))))).

(** A block of the source chain, as far as one network is concerned. [gb_ctx] names the validators from here on. *)
Record gblock := GB { gb_height : Z; gb_round : Z; gb_ctx : list Z; gb_update : bool;
  gb_msgs : list (list Z); gb_root : option (list Z); gb_tree : nstree }.
Definition gb_section (nid : Z) (prev : option (list Z)) (sn : Z) (b : gblock) : nsection :=
  NS nid (2 * sn + (if gb_update b then 1 else 0)) prev (zlen (gb_msgs b)) (gb_root b).
Definition root_of (H : list Z -> list Z) (msgs : list (list Z)) (r : option (list Z)) : Prop :=
  match msgs with [] => r = None | _ => exists x, r = Some x /\ merkle H msgs x end.
Definition gb_decision (H : list Z -> list Z) (src : list Z) (ntid : Z) (b : gblock) : list Z :=
  dec_hash H src ntid (gb_height b) (gb_round b) (Some (H (gb_ctx b))) (nst_root H (gb_tree b)).

(** [history prev ctx sn bs]: [bs] are consecutive blocks after a section with hash [prev], with [ctx] in force and
    [sn] messages sent before. *)
Inductive history (H : list Z -> list Z) (nid : Z) : option (list Z) -> list Z -> Z -> list gblock -> Prop :=
| hi_nil : forall prev ctx sn, history H nid prev ctx sn []
| hi_cons : forall prev ctx sn b bs,
    (gb_update b = false -> gb_ctx b = ctx) ->
    root_of H (gb_msgs b) (gb_root b) -> zlen (gb_msgs b) < 2 ^ 31 ->
    in_tree (gb_section nid prev sn b) (gb_tree b) ->
    (forall s, in_tree s (gb_tree b) -> short (ns_enc s) /\ rlp_ok (ns_items s) /\ (s_nid s = nid -> s = gb_section nid prev sn b)) ->
    history H nid (Some (H (ns_enc (gb_section nid prev sn b)))) (gb_ctx b) (sn + zlen (gb_msgs b)) bs ->
    history H nid prev ctx sn (b :: bs).

Definition messages (bs : list gblock) : list (list Z) := concat (map gb_msgs bs).

(** [signs d sig a]: the signature of [d] recovers to a public key with address [a]. *)
Definition signs (H : list Z -> list Z) (recover : list Z -> list Z -> option (list Z)) (d sig a : list Z) : Prop :=
  exists c k, recover d sig = Some (c :: k) /\ a = skipn 12 (H k).
(** More than two thirds of the validators, each counted once, signed [d]. *)
Definition quorum (H : list Z -> list Z) (recover : list Z -> list Z -> option (list Z)) (vs : list (list Z)) (d : list Z) : Prop :=
  exists signers, NoDup signers /\ (forall a, In a signers -> In a vs /\ exists sig, signs H recover d sig a) /\ 2 * zlen vs < 3 * zlen signers.

(** A section encoding that is also two digests in a row, i.e. an inner node of the Merkle tree of sections. *)
Definition confusion (H : list Z -> list Z) : Prop :=
  exists s a b, ns_enc s = a ++ b /\ zlen a = 32 /\ zlen b = 32 /\ ((exists x, a = H x) \/ (exists x, b = H x)).
