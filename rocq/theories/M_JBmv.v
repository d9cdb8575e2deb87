(** Model of the BTP block verifier contract, javascore/bmv/btpblock (package foundation.icon.btp.bmv.btpblock),
    from decoded relay messages on.  The hash (keccak-256) and the recovery of a public key from a signature are
    parameters.  An exception reverts the transaction: it is None here and leaves the state as it was.
    Context.newByteArrayObjectWriter("RLPn") is library code; it is taken to write what common/codec/rlp.go writes
    ([rlp_write]), with integers in shortest two's complement ([BigIntToBytes]). *)
From Coq Require Import String Ascii ZArith List Bool.
From Verif Require Import Base M_IntConv M_Rlp M_Mbt M_Misc.
Import ListNotations.
Open Scope Z_scope.

(** Java int and long arithmetic *)
Definition jint (v : Z) : Z := (v + 2 ^ 31) mod 2 ^ 32 - 2 ^ 31.
Definition obind {A B} (o : option A) (f : A -> option B) : option B := match o with Some a => f a | None => None end.
Definition check (b : bool) : option unit := if b then Some tt else None.

(** * Node.java *)
(** Node.java 101-108 *)
Definition numberToLevel (n : Z) : Z := if n <=? 2 then n else ntl_loop 64 (Z.shiftr (n - 1) 2) 3.
(** Node.java 47-68.  left and right are both null or both set, as in common/mbt, whose node type is used.
    Levels are not wrapped: they grow by one per call. *)
Fixpoint j_add (n : node) (m : Z) (v : list Z) : node :=
  match n with
  | Leaf _ lv num =>
      if lv =? 0 then Leaf v (numberToLevel m) m
      else Branch n (Leaf v (numberToLevel m) m) [] (lv + 1) (jint (num + m))
  | Branch l r v0 lv num =>
      if lv =? 0 then Branch l r v (numberToLevel m) m
      else if negb (n_num l =? n_num r) then Branch l (j_add r m v) v0 lv (jint (num + m))
      else Branch n (Leaf v (numberToLevel m) m) [] (lv + 1) (jint (num + m))
  end.
(** Node.java 70-77, called with force = false; left.value of a childless node is a NullPointerException *)
Fixpoint j_ensureHash (H : list Z -> list Z) (n : node) : option node :=
  match n with
  | Leaf v lv num => if lv <=? 1 then Some n else if empty_bytes v then None else Some n
  | Branch l r v lv num =>
      if lv <=? 1 then Some n
      else if empty_bytes v then
        obind (j_ensureHash H l) (fun l' => obind (j_ensureHash H r) (fun r' => Some (Branch l' r' (H (n_h l' ++ n_h r')) lv num)))
      else Some n
  end.
(** 1 << s on ints: the low five bits of s count *)
Definition jshl1 (s : Z) : Z := jint (2 ^ (s mod 32)).
(** Node.java 79-99; true = no exception *)
Fixpoint j_verify (n : node) : bool :=
  match n with
  | Leaf _ lv num => if lv =? 1 then num =? 1 else true
  | Branch l r _ lv num =>
      if lv =? 1 then num =? 1
      else negb (n_level l <? n_level r) && j_verify l && (if 2 <? lv then jshl1 (n_level l - 1) =? n_num l else true) && j_verify r
  end.

(** * MessageProof.java *)
(** MessageProof.java 27-35; proof nodes are those of common/mbt *)
Definition jproof : Type := mbt_proof.
(** MessageProof.java 92-118: hash (None is null), offset and total *)
Definition proveMessage (H : list Z -> list Z) (p : jproof) : option (option (list Z) * Z * Z) :=
  let n0 := fold_left (fun n x => j_add n (p_num x) (p_value x)) (p_left p) new_node in
  let left := fold_left (fun a x => jint (a + p_num x)) (p_left p) 0 in
  let n1 := fold_left (fun n c => j_add n 1 (H c)) (p_contents p) n0 in
  let n2 := fold_left (fun n x => j_add n (p_num x) (p_value x)) (p_right p) n1 in
  let total := fold_left (fun a x => jint (a + p_num x)) (p_right p) (jint (zlen (p_contents p))) in
  obind (j_ensureHash H n2) (fun r =>
  let total := jint (total + left) in
  obind (check ((total =? n_num r) && j_verify r)) (fun _ =>
  Some (match p_left p, p_contents p, p_right p with [], [], [] => None | _, _, _ => Some (n_h r) end, left, total))).

(** * BlockHeader.java, NetworkSection.java, NetworkTypeSection.java, NetworkTypeSectionDecision.java *)
(** BlockHeader.java 27-37; height and round are not null (null leads to an exception when they are used) *)
Record header := mkHeader { hd_height : Z; hd_round : Z; hd_nextCtxHash : option (list Z); hd_path : list (Z * list Z);
  hd_nid : Z; hd_upd : Z; hd_prev : option (list Z); hd_cnt : Z; hd_root : option (list Z); hd_nextCtx : option (list Z) }.
(** BlockHeader.java 63-65 *)
Definition firstMessageSn (h : header) : Z := Z.shiftr (hd_upd h) 1.

Definition rint (z : Z) : rlp := RBytes (BigIntToBytes z).
Definition rnull (o : option (list Z)) : rlp := match o with Some b => RBytes b | None => RNull end.
(** NetworkSection.java 39-57 *)
Definition section_bytes (nid upd : Z) (prev : option (list Z)) (cnt : Z) (root : option (list Z)) : list Z :=
  rlp_write (RList [rint nid; rint upd; rnull prev; rint cnt; rnull root]).
(** NetworkTypeSection.java 45-61 *)
Definition type_section_bytes (ctxHash : option (list Z)) (nsRoot : list Z) : list Z := rlp_write (RList [rnull ctxHash; RBytes nsRoot]).
(** NetworkTypeSectionDecision.java 59-78 *)
Definition decision_bytes (src : list Z) (ntid height round : Z) (ntsHash : list Z) : list Z :=
  rlp_write (RList [RBytes src; rint ntid; rint height; rint round; RBytes ntsHash]).
(** BlockHeader.java 151-156: 32 bytes of each are copied *)
Definition concatAndHash (H : list Z -> list Z) (a b : list Z) : option (list Z) :=
  if (length a <? 32)%nat || (length b <? 32)%nat then None else Some (H (firstn 32 a ++ firstn 32 b)).
(** BlockHeader.java 158-168: the loop combines each path element with [leaf], not with the hash so far *)
Definition getNetworkSectionsRoot (H : list Z -> list Z) (leaf : list Z) (path : list (Z * list Z)) : option (list Z) :=
  fold_left (fun o e => obind o (fun h => if fst e =? 0 then concatAndHash H (snd e) leaf else if fst e =? 1 then concatAndHash H leaf (snd e) else Some h))
    path (Some leaf).

(** * BMVProperties.java *)
(** BMVProperties.java 30-42 *)
Record props := mkProps { p_src : list Z; p_ntid : Z; p_nid : Z; p_ctxHash : option (list Z); p_ctx : option (list Z);
  p_nsHash : option (list Z); p_bmc : list Z; p_lastSeq : Z; p_root : option (list Z); p_cnt : Z; p_first : Z; p_height : Z; p_offset : Z }.
(** BMVProperties.java 52-56 *)
Definition getNetwork (src : list Z) : list Z := match last_index src (ch "/") with Some n => skipn (S n) src | None => src end.
(** BMVProperties.java 139-145 *)
Definition processed (p : props) : Z := p_lastSeq p - p_first p.
Definition remain (p : props) : Z := p_cnt p - processed p.

Definition opt_eqb (a b : option (list Z)) : bool :=
  match a, b with Some x, Some y => bytes_eqb x y | None, None => true | _, _ => false end.

(** ProofContext.java 43-63, EthAddress.java 28-35: one list of addresses of 20 bytes inside a list *)
Fixpoint read_addresses (fuel : nat) (s : list Z) : option (list (list Z)) :=
  match s with
  | [] => Some []
  | _ => match fuel with
         | O => None
         | S f => match readBytes s with
                  | ROk a s' => if (length a =? 20)%nat then obind (read_addresses f s') (fun l => Some (a :: l)) else None
                  | _ => None
                  end
         end
  end.
Definition ctx_validators (c : option (list Z)) : option (list (list Z)) :=
  obind c (fun b => match readList b with
                    | ROk s _ => match readList s with ROk s' _ => read_addresses (length s') s' | _ => None end
                    | _ => None
                    end).

Inductive item := BlockUpdate_ (h : header) (sigs : option (list (list Z))) | MessageProof_ (p : jproof) | Undecodable.

Section BMV.
Variable H : list Z -> list Z.
Variable recover : list Z -> list Z -> option (list Z). (* Context.recoverKey, uncompressed *)

(** BTPMessageVerifier.java 256-265; None is an exception *)
Definition recoverAddress (msg sig : list Z) : option (list Z) :=
  obind (recover msg sig) (fun pk => match pk with [] => None | _ :: k => let d := H k in if (length d <? 32)%nat then None else Some (firstn 20 (skipn 12 d)) end).

(** BTPMessageVerifier.java 190-209: the loop; [seen] is verifiedValidator *)
Fixpoint count_votes (vs : list (list Z)) (d : list Z) (sigs : list (list Z)) (seen : list (list Z)) : option (list (list Z)) :=
  match sigs with
  | [] => Some seen
  | s :: r =>
      obind (recoverAddress d s) (fun a =>
      if negb (existsb (bytes_eqb a) vs) then None else if existsb (bytes_eqb a) seen then None else count_votes vs d r (seen ++ [a]))
  end.
Definition verifyProof (p : props) (d : list Z) (sigs : list (list Z)) : option unit :=
  obind (ctx_validators (p_ctx p)) (fun vs => obind (count_votes vs d sigs []) (fun seen =>
  check (zlen vs * 2 <? zlen seen * 3))).

(** BTPMessageVerifier.java 88-124, with 39-46 *)
Definition handleFirstBlockHeader (src : list Z) (ntid : Z) (bmc : list Z) (off : Z) (h : header) : option props :=
  match hd_prev h, hd_nextCtx h with
  | None, Some ctx =>
      if opt_eqb (Some (H ctx)) (hd_nextCtxHash h) then
        Some (mkProps src ntid (hd_nid h) (hd_nextCtxHash h) (Some ctx) (Some (H (section_bytes (hd_nid h) (hd_upd h) None (hd_cnt h) (hd_root h))))
                      bmc 0 (hd_root h) (hd_cnt h) (firstMessageSn h) (hd_height h) off)
      else None
  | _, _ => None
  end.

(** The hash that the validators sign, as computed at 145-166 *)
Definition decision_hash (p : props) (h : header) : option (list Z) :=
  obind (getNetworkSectionsRoot H (H (section_bytes (hd_nid h) (hd_upd h) (hd_prev h) (hd_cnt h) (hd_root h))) (hd_path h)) (fun root =>
  Some (H (decision_bytes (p_src p) (p_ntid p) (i64 (hd_height h)) (jint (hd_round h)) (H (type_section_bytes (hd_nextCtxHash h) root))))).

(** BTPMessageVerifier.java 126-183 and 185-188 *)
Definition handleBlockUpdate (p : props) (h : header) (sigs : option (list (list Z))) : option props :=
  obind (check (p_first p + p_cnt p - p_offset p =? firstMessageSn h)) (fun _ =>
  obind (check (remain p =? 0)) (fun _ =>
  obind (check (p_nid p =? hd_nid h)) (fun _ =>
  obind (check (opt_eqb (p_nsHash p) (hd_prev h))) (fun _ =>
  obind (decision_hash p h) (fun d =>
  obind sigs (fun sigs =>
  obind (verifyProof p d sigs) (fun _ =>
  obind (if Z.land (hd_upd h) 1 =? 1 then
           obind (check (negb (opt_eqb (p_ctxHash p) (hd_nextCtxHash h)))) (fun _ =>
           obind (hd_nextCtx h) (fun ctx =>
           obind (check (opt_eqb (Some (H ctx)) (hd_nextCtxHash h))) (fun _ => Some (hd_nextCtxHash h, Some ctx))))
         else Some (p_ctxHash p, p_ctx p)) (fun c =>
  Some (mkProps (p_src p) (p_ntid p) (p_nid p) (fst c) (snd c)
                (Some (H (section_bytes (hd_nid h) (hd_upd h) (hd_prev h) (hd_cnt h) (hd_root h)))) (p_bmc p) (p_lastSeq p)
                (hd_root h) (hd_cnt h) (firstMessageSn h) (hd_height h) (p_offset p)))))))))).

(** BTPMessageVerifier.java 211-250; [bu] is the block update earlier in the same relay message *)
Definition handleMessageProof (p : props) (m : jproof) (bu : option header) : option (props * list (list Z)) :=
  obind (check (0 <? remain p)) (fun _ =>
  obind (proveMessage H m) (fun r =>
  let '(hash, offset, total) := r in
  obind (check (processed p =? offset)) (fun _ =>
  obind (match bu with
         | Some h => obind (check (negb (0 <? offset))) (fun _ => Some (hd_root h, hd_cnt h))
         | None => obind (check (jint (processed p) =? offset)) (fun _ => Some (p_root p, p_cnt p))
         end) (fun e =>
  obind (check (jint (snd e) =? total)) (fun _ =>
  obind (check (opt_eqb hash (fst e))) (fun _ =>
  let cnt := zlen (p_contents m) in
  Some (mkProps (p_src p) (p_ntid p) (p_nid p) (p_ctxHash p) (p_ctx p) (p_nsHash p) (p_bmc p) (p_lastSeq p + cnt)
                (if jint (total - offset - cnt) =? 0 then None else p_root p) (p_cnt p) (p_first p) (p_height p) (p_offset p),
        p_contents m))))))).

(** BTPMessageVerifier.java 60-72: the loop over the relay message *)
Fixpoint handle_items (p : props) (bu : option header) (its : list item) (acc : list (list Z)) : option (props * list (list Z)) :=
  match its with
  | [] => Some (p, acc)
  | BlockUpdate_ h sigs :: r => obind (handleBlockUpdate p h sigs) (fun p' => handle_items p' (Some h) r acc)
  | MessageProof_ m :: r => obind (handleMessageProof p m bu) (fun x => handle_items (fst x) bu r (acc ++ snd x))
  | Undecodable :: _ => None
  end.

(** A call: the caller, the account of _bmc, the network of _prev, _seq and the items of _msg. *)
Record call := mkCall { c_caller : list Z; c_account : list Z; c_net : list Z; c_seq : Z; c_items : list item }.
(** BTPMessageVerifier.java 53-86 and 270-279 *)
Definition handleRelayMessage (p : props) (c : call) : option (props * list (list Z)) :=
  obind (check (bytes_eqb (getNetwork (p_src p)) (c_net c) && bytes_eqb (c_caller c) (p_bmc p) && bytes_eqb (c_account c) (p_bmc p))) (fun _ =>
  obind (check (p_offset p + p_lastSeq p =? c_seq c)) (fun _ => handle_items p None (c_items c) [])).

(** Transactions one after the other; a reverted one changes nothing. *)
Fixpoint run (p : props) (cs : list call) : props * list (list Z) :=
  match cs with
  | [] => (p, [])
  | c :: r => match handleRelayMessage p c with
              | None => run p r
              | Some (p', ms) => let (q, out) := run p' r in (q, ms ++ out)
              end
  end.
End BMV.
