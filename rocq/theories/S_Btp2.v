(** Specification for the whole way of a message: a source chain as its node shows it, and a destination that takes relay
    messages one after the other.  Blocks, sections and quorums are those of S_JBmv.v, bytes those of S_Wire.v. *)
From Coq Require Import ZArith List Bool.
From Verif Require Import Base M_Rlp S_Rlp M_Mbt S_Mbt M_JBmv S_JBmv L_JBmv3 T_JBmv M_Wire S_Wire.
Import ListNotations.
Open Scope Z_scope.

(** A block with the header and the signatures that the node hands out for it. *)
Record shown := Shown { sh_block : gblock; sh_header : header; sh_sigs : list (list Z) }.
Definition sh_msgs (x : shown) : list (list Z) := gb_msgs (sh_block x).
Definition sh_height (x : shown) : Z := gb_height (sh_block x).

Definition int64 (z : Z) : Prop := - 2 ^ 63 <= z < 2 ^ 63.
Definition int32 (z : Z) : Prop := - 2 ^ 31 <= z < 2 ^ 31.

(** [follows prev sn b x]: after the block [b] (whose section follows the hash [prev] and [sn] messages) comes the block of [x]:
    its network is alone in its type, its header tells the truth, more than two thirds of the validators have signed it, and
    validators change only where the block says so. *)
Record follows (H : list Z -> list Z) (recover : list Z -> list Z -> option (list Z)) (src : list Z) (ntid nid : Z)
    (prev : option (list Z)) (sn : Z) (b : gblock) (x : shown) : Prop := Follows {
  fo_section : header_section (sh_header x) = gb_section nid (Some (H (ns_enc (gb_section nid prev sn b)))) (sn + zlen (gb_msgs b)) (sh_block x);
  fo_alone : gb_tree (sh_block x) = NLeaf (header_section (sh_header x)) /\ hd_path (sh_header x) = [];
  fo_height : hd_height (sh_header x) = sh_height x /\ gb_height b < sh_height x /\ 0 < sh_height x;
  fo_round : hd_round (sh_header x) = gb_round (sh_block x);
  fo_ctx : hd_nextCtxHash (sh_header x) = Some (H (gb_ctx (sh_block x)));
  fo_change : if gb_update (sh_block x) then hd_nextCtx (sh_header x) = Some (gb_ctx (sh_block x)) /\ H (gb_ctx b) <> H (gb_ctx (sh_block x))
              else gb_ctx (sh_block x) = gb_ctx b;
  fo_signed : exists vs signers, ctx_validators (Some (gb_ctx b)) = Some vs /\ Forall2 (signs H recover (gb_decision H src ntid (sh_block x))) (sh_sigs x) signers /\
              NoDup signers /\ (forall a, In a signers -> In a vs) /\ 2 * zlen vs < 3 * zlen (sh_sigs x);
  fo_root : root_of H (sh_msgs x) (gb_root (sh_block x));
  fo_numbers : int64 (hd_height (sh_header x)) /\ int32 (hd_round (sh_header x)) /\ int64 (hd_nid (sh_header x)) /\ int64 (hd_upd (sh_header x)) /\ int64 (hd_cnt (sh_header x));
  fo_bytes : wire_header_ok (sh_header x) /\ Forall bytes_ok (sh_sigs x) /\ Forall bytes_ok (sh_msgs x) /\ zlen (sh_msgs x) < 2 ^ 31 }.
Inductive goes_on (H : list Z -> list Z) (recover : list Z -> list Z -> option (list Z)) (src : list Z) (ntid nid : Z) :
    option (list Z) -> Z -> gblock -> list shown -> Prop :=
| go_nil : forall prev sn b, goes_on H recover src ntid nid prev sn b []
| go_cons : forall prev sn b x xs, follows H recover src ntid nid prev sn b x ->
    goes_on H recover src ntid nid (Some (H (ns_enc (gb_section nid prev sn b)))) (sn + zlen (gb_msgs b)) (sh_block x) xs ->
    goes_on H recover src ntid nid prev sn b (x :: xs).

(** What is told about a block: its header and, if it has messages, a proof of all of them. *)
Definition whole_news (H : list Z -> list Z) (x : shown) (l : list news) : Prop :=
  match sh_msgs x with
  | [] => l = [Header (sh_header x) (sh_sigs x)]
  | _ => exists t m, NewMerkleBinaryTree H (map Some (sh_msgs x)) = Ok t /\ mbt_Proof t 1 (zlen (sh_msgs x)) = Ok m /\ l = [Header (sh_header x) (sh_sigs x); Messages true m]
  end.
Definition header_size (x : shown) : Z := zlen (rlp_write (RList [RBytes (header_wire (sh_header x)); RBytes (sigs_wire (sh_sigs x))])).
(** The block fits: its header and proofs of its first messages together stay within [limit], and so does all of it within 2^31. *)
Definition fits (H : list Z -> list Z) (limit : Z) (x : shown) : Prop :=
  header_size x <= limit /\
  (forall t m e, NewMerkleBinaryTree H (map Some (sh_msgs x)) = Ok t -> mbt_Proof t 1 e = Ok m -> 1 <= e < zlen (sh_msgs x) ->
     zlen (rlp_write (proof_item false m)) <= limit - header_size x) /\
  (forall l, whole_news H x l -> zlen (message_wire l) < 2 ^ 31).

(** The destination: the message center calls its verifier with the number of messages received; every message must be taken. *)
Fixpoint all_taken (H : list Z -> list Z) (recover : list Z -> list Z -> option (list Z)) (p : props) (ms : list (list Z)) : option (props * list (list Z)) :=
  match ms with
  | [] => Some (p, [])
  | m :: r =>
      match handleRelayBytes H recover p (p_bmc p) (p_bmc p) (getNetwork (p_src p)) (p_lastSeq p) m with
      | Some (p1, out) => match all_taken H recover p1 r with Some (p2, out') => Some (p2, out ++ out') | None => None end
      | None => None
      end
  end.
