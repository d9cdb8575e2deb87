(** Independent specification for the Solidity BTP block verifier.  The chain it follows is that of [S_JBmv]. *)
From Coq Require Import ZArith List Bool.
From Verif Require Import Base M_Rlp S_Rlp M_Mbt S_Mbt M_JBmv S_JBmv S_Wire M_SolRlp M_SolBmv.
Import ListNotations.
Open Scope Z_scope.

(** The section a header describes; 32 zero bytes stand for "none". *)
Definition opt32 (h : list Z) : option (list Z) := if bytes_eqb h (repeat 0 32) then None else Some h.
Definition s_section (h : sheader) : nsection :=
  NS (sh_nid h) (2 * sh_sn h + (if sh_upd h then 1 else 0)) (opt32 (sh_prev h)) (sh_cnt h) (opt32 (sh_root h)).

(** More than two thirds of the positions in the list of validators have a signature of [d]. *)
Definition signed_by (ecrecover : list Z -> Z -> list Z -> list Z -> Z) (d : list Z) (a : Z) : Prop := exists v r s, ecrecover d v r s = a.
Definition squorum (ecrecover : list Z -> Z -> list Z -> list Z -> Z) (vs : list Z) (d : list Z) : Prop :=
  exists places : list nat, NoDup places /\ (forall i, In i places -> exists a, nth_error vs i = Some a /\ signed_by ecrecover d a) /\ 2 * zlen vs < 3 * zlen places.

(** A message that could be an inner node of the tree: two digests in a row, one of them the digest of something. *)
Definition nodelike (H : list Z -> list Z) (m : list Z) : Prop :=
  exists a b, m = a ++ b /\ zlen a = 32 /\ zlen b = 32 /\ ((exists x, a = H x) \/ (exists x, b = H x)).

(** The section hash and the number of messages after some blocks. *)
Fixpoint after (H : list Z -> list Z) (nid : Z) (prev : option (list Z)) (sn : Z) (bs : list gblock) : option (list Z) * Z :=
  match bs with [] => (prev, sn) | b :: r => after H nid (Some (H (ns_enc (gb_section nid prev sn b)))) (sn + zlen (gb_msgs b)) r end.

(** For every message number the messages of the block that carries it. *)
Definition carriers (bs : list gblock) : list (list (list Z)) := concat (map (fun b => map (fun _ => gb_msgs b) (gb_msgs b)) bs).

Section Inputs.
Variable H : list Z -> list Z.
Variable junk : list Z -> mem.
Variable ecrecover : list Z -> Z -> list Z -> list Z -> Z.
(** The validators named by a header are those its signed context hash stands for. *)
Definition committed (h : sheader) : Prop := sh_upd h = true -> exists ctx, sh_ctx h = H ctx /\ decodeValidators junk ctx = Some (sh_vals h).
Definition all_committed (msg : list Z) : Prop :=
  forall rms b h sigs, decodeTyped junk msg = Some rms -> In (1, b) rms -> decodeBlockUpdate junk b = Some (h, sigs) -> committed h.

(** Every proof of messages starts where the last one ended. *)
Fixpoint items_in_order (k : sbmv) (db : sdb) (rem : Z) (l : list (Z * list Z)) : Prop :=
  match l with
  | [] => True
  | (ty, b) :: r =>
      if ty =? 1 then forall h sigs db' rem', decodeBlockUpdate junk b = Some (h, sigs) -> s_update H ecrecover k db rem h sigs = Some (db', rem') -> items_in_order k db' rem' r
      else if ty =? 2 then forall p db' rem', decodeMessageProof junk b = Some p -> s_messages H db rem p = Some (db', rem') ->
        fold_right (fun x a => sn_count x + a) 0 (sp_lefts p) = d_next db - d_first db /\ items_in_order k db' rem' r
      else items_in_order k db rem r
  end.
Fixpoint calls_in_order (k : sbmv) (cs : list scall) : Prop :=
  match cs with
  | [] => True
  | c :: r =>
      match s_handle H junk ecrecover k (sc_sender c) (sc_prev c) (sc_sn c) (sc_msg c) with
      | None => calls_in_order k r
      | Some (k', _) =>
          (forall rms, decodeTyped junk (sc_msg c) = Some rms ->
             items_in_order k (k_db k) (d_cnt (k_db k) - (d_next (k_db k) - d_first (k_db k))) rms) /\ calls_in_order k' r
      end
  end.
End Inputs.

(** What the contract should take the relay's headers, signatures and proofs for (formats: [S_Wire]). *)
Definition dflt32 (o : option (list Z)) : list Z := match o with Some b => b | None => repeat 0 32 end.
Definition ctx_wire (addrs : list (list Z)) : list Z := rlp_write (RList [RList (map RBytes addrs)]).
Definition taken (h : header) (vals : list Z) : sheader :=
  SHeader (hd_height h) (hd_round h) (dflt32 (hd_nextCtxHash h)) (hd_path h) (hd_nid h) (hd_upd h / 2) (Z.odd (hd_upd h)) (dflt32 (hd_prev h)) (hd_cnt h) (dflt32 (hd_root h)) vals.
Definition of_proof (m : mbt_proof) : sproof :=
  let f := map (fun x => SNode (levelOf (p_num x)) (p_num x) (p_value x)) in SProof (f (p_left m)) (p_contents m) (f (p_right m)).
(** hashes are hashes, numbers are unsigned, an update names its validators *)
Definition len32 (o : option (list Z)) : Prop := match o with Some b => zlen b = 32 | None => True end.
Definition unsigned (z : Z) : Prop := 0 <= z < 2 ^ 255.
Definition sol_header_ok (h : header) (addrs : list (list Z)) : Prop :=
  unsigned (hd_height h) /\ unsigned (hd_round h) /\ unsigned (hd_nid h) /\ unsigned (hd_upd h) /\ unsigned (hd_cnt h) /\
  len32 (hd_nextCtxHash h) /\ len32 (hd_prev h) /\ len32 (hd_root h) /\
  Forall (fun x => 0 <= fst x /\ zlen (snd x) = 32) (hd_path h) /\
  Forall (fun a => bytes_ok a /\ zlen a = 20) addrs /\ (if Z.odd (hd_upd h) then hd_nextCtx h = Some (ctx_wire addrs) else addrs = []).
Definition sol_node_ok (n : proof_node) : Prop := 0 <= p_num n /\ zlen (p_value n) = 32.
Definition sol_news_ok (n : news) (addrs : list (list Z)) : Prop :=
  match n with Header h _ => sol_header_ok h addrs | Messages _ m => Forall sol_node_ok (p_left m ++ p_right m) end.
Definition kind (n : news) : Z := match n with Header _ _ => 1 | Messages _ _ => 2 end.
Definition body (n : news) : list Z :=
  match n with Header h sigs => rlp_write (RList [RBytes (header_wire h); RBytes (sigs_wire sigs)]) | Messages all m => rlp_write (proof_item all m) end.
