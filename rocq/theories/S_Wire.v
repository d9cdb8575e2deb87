(** Independent description of the relay message format of the BTP block verifier, as trees of RLP items:
    a message is a list of typed payloads; the payload of type 1 is a header with the validators' signatures, that of
    type 2 a run of messages with the Merkle nodes to the left and to the right. *)
From Coq Require Import ZArith List Bool.
From Verif Require Import Base M_IntConv M_Rlp S_Rlp M_Mbt M_JBmv S_JBmv.
Import ListNotations.
Open Scope Z_scope.

Definition path_item (x : Z * list Z) : rlp := RList [int_item (fst x); RBytes (snd x)].
Definition header_item (h : header) : rlp :=
  RList [int_item (hd_height h); int_item (hd_round h); opt_item (hd_nextCtxHash h); RList (map path_item (hd_path h));
         int_item (hd_nid h); int_item (hd_upd h); opt_item (hd_prev h); int_item (hd_cnt h); opt_item (hd_root h); opt_item (hd_nextCtx h)].
Definition sigs_item (sigs : list (list Z)) : rlp := RList [RList (map RBytes sigs)].
(** what the node's API hands out for a block *)
Definition header_wire (h : header) : list Z := rlp_write (header_item h).
Definition sigs_wire (sigs : list (list Z)) : list Z := rlp_write (sigs_item sigs).

Definition pnode_item (n : proof_node) : rlp := RList [int_item (p_num n); RBytes (p_value n)].
(** [all]: no node lists at all, the nil marker stands in their place *)
Definition pnodes_item (all : bool) (l : list proof_node) : rlp := if all then RNull else RList (map pnode_item l).
Definition proof_item (all : bool) (m : mbt_proof) : rlp :=
  RList [pnodes_item all (p_left m); RList (map RBytes (p_contents m)); pnodes_item all (p_right m)].

(** What the relay wants to tell. *)
Inductive news := Header (h : header) (sigs : list (list Z)) | Messages (all : bool) (m : mbt_proof).
Definition news_item (n : news) : rlp :=
  match n with
  | Header h sigs => RList [int_item 1; RBytes (rlp_write (RList [RBytes (header_wire h); RBytes (sigs_wire sigs)]))]
  | Messages all m => RList [int_item 2; RBytes (rlp_write (proof_item all m))]
  end.
Definition message_wire (l : list news) : list Z := rlp_write (RList [RList (map news_item l)]).
(** What the contract should take it for. *)
Definition meant (n : news) : item := match n with Header h sigs => BlockUpdate_ h (Some sigs) | Messages _ m => MessageProof_ m end.

(** Strings consist of bytes, numbers of leaves fit a Java int and directions too; a proof of everything has no nodes. *)
Definition opt_bytes (o : option (list Z)) : Prop := match o with Some b => bytes_ok b | None => True end.
Definition fits_int (z : Z) : Prop := - 2 ^ 31 <= z < 2 ^ 31.
Definition wire_header_ok (h : header) : Prop :=
  opt_bytes (hd_nextCtxHash h) /\ opt_bytes (hd_prev h) /\ opt_bytes (hd_root h) /\ opt_bytes (hd_nextCtx h) /\
  Forall (fun x => fits_int (fst x) /\ bytes_ok (snd x)) (hd_path h).
Definition wire_node_ok (n : proof_node) : Prop := fits_int (p_num n) /\ bytes_ok (p_value n).
Definition wire_proof_ok (all : bool) (m : mbt_proof) : Prop :=
  Forall wire_node_ok (p_left m) /\ Forall bytes_ok (p_contents m) /\ Forall wire_node_ok (p_right m) /\
  (all = true -> p_left m = [] /\ p_right m = []).
Definition news_ok (n : news) : Prop :=
  match n with Header h sigs => wire_header_ok h /\ Forall bytes_ok sigs | Messages all m => wire_proof_ok all m end.
