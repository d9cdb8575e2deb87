(** Model of the BTP block verifier in Solidity, solidity/bmv/contracts.  A revert, a failed require or assert and a panic
    are [None]; the reason strings are not told apart.  The hash (keccak-256) and the precompiled ecrecover are
    parameters.  A bytes32 is a list of 32 bytes.  Lengths of arrays are far below 2^256. *)
From Coq Require Import String Ascii ZArith List Bool.
From Verif Require Import Base M_SolRlp M_BtpAddr M_Bridge.
Import ListNotations.
Open Scope Z_scope.

(** conversion of bytes to bytes32: cut or padded behind *)
Definition to32 (b : list Z) : list Z := firstn 32 (b ++ repeat 0 32).
Definition zero32 : list Z := repeat 0 32.

(** * String.sol *)
(** String.sol 80-97: the first place of [c] at or behind [off] *)
Fixpoint index_loop (c : Z) (l : list Z) (i : nat) : option nat :=
  match l with [] => None | x :: r => if x =? c then Some i else index_loop c r (S i) end.
Definition s_indexOf (b : list Z) (c : Z) (off : nat) : option nat := index_loop c (skipn off b) off.
(** String.sol 130-139: the number of parts *)
Fixpoint split_count (fuel : nat) (b : list Z) (c : Z) (off n : nat) : nat :=
  match fuel with
  | O => n
  | S f => if (off <? length b - 1)%nat then match s_indexOf b c off with None => n | Some k => split_count f b c (k + 1) (n + 1) end else n
  end.
(** String.sol 143-160: the parts, in order *)
Fixpoint split_parts (fuel : nat) (b : list Z) (c : Z) (off : nat) : list (list Z) :=
  match fuel with
  | O => []
  | S f => if (off <? length b - 1)%nat then
             let limit := match s_indexOf b c off with None => length b | Some k => k end in
             firstn (limit - off) (skipn off b) :: split_parts f b c (limit + 1)
           else []
  end.
(** String.sol 127-161: an array of the counted size, filled from the front; too many parts would be an index error *)
Definition s_split (b : list Z) (c : Z) : option (list (list Z)) :=
  sbind (require (0 <? zlen b)) (fun _ =>
  let n := split_count (length b) b c 0 1 in
  let ps := split_parts (S (length b)) b c 0 in
  sbind (require (length ps <=? n)%nat) (fun _ => Some (ps ++ repeat [] (n - length ps)))).
(** String.sol 27-30 *)
Definition splitBTPAddress (b : list Z) : option (list Z * list Z) :=
  sbind (s_split b (ch "/")) (fun t => sbind (at_index t 2) (fun n => sbind (at_index t 3) (fun a => Some (n, a)))).

(** * MessageProofLib.sol *)
(** MessageProofLib.sol 13-17 *)
Record snode := SNode { sn_level : Z; sn_count : Z; sn_hash : list Z }.
(** MessageProofLib.sol 7-11 *)
Record sproof := SProof { sp_lefts : list snode; sp_mesgs : list (list Z); sp_rights : list snode }.
(** MessageProofLib.sol 24-29 *)
Record squeue := SQueue { q_front : nat; q_rear : nat; q_len : nat; q_nodes : list snode }.
(** an array write; an index out of range is a panic *)
Fixpoint write_at {A} (l : list A) (i : nat) (x : A) : option (list A) :=
  match l, i with
  | [], _ => None
  | _ :: r, O => Some (x :: r)
  | y :: r, S i' => sbind (write_at r i' x) (fun r' => Some (y :: r'))
  end.
(** MessageProofLib.sol 83-91 *)
Definition q_push (q : squeue) (x : snode) : option squeue :=
  sbind (require (q_len q <? length (q_nodes q))%nat) (fun _ =>
  sbind (write_at (q_nodes q) (q_rear q) x) (fun ns =>
  Some (SQueue (q_front q) (if (S (q_rear q) =? length ns)%nat then O else S (q_rear q)) (S (q_len q)) ns))).
(** MessageProofLib.sol 93-100 *)
Definition q_pop (q : squeue) : option (snode * squeue) :=
  match q_len q with
  | O => None
  | S n => sbind (at_index (q_nodes q) (q_front q)) (fun x =>
           Some (x, SQueue (if (S (q_front q) =? length (q_nodes q))%nat then O else S (q_front q)) (q_rear q) n (q_nodes q)))
  end.
(** MessageProofLib.sol 102-115, in assembly: unchecked; the loop ends after at most 256 turns *)
Fixpoint level_loop (fuel : nat) (t level : Z) : Z :=
  match fuel with O => level | S f => if 0 <? t then level_loop f (Z.shiftr t 1) (level + 1) else level end.
Definition levelOf (n : Z) : Z := level_loop 256 ((n - 1) mod 2 ^ 256) 1.
(** a shift of 256 or more gives 0 *)
Definition sshl1 (s : Z) : Z := if s <? 256 then 2 ^ s else 0.

Section Hash.
Variable H : list Z -> list Z.
(** MessageProofLib.sol 117-130 *)
Definition s_concat (l r : snode) : option snode :=
  sbind (csub (sn_level l) 1) (fun lv =>
  sbind (require (sn_count l =? sshl1 lv)) (fun _ =>
  sbind (require (sn_count r <=? sn_count l)) (fun _ =>
  sbind (cadd (sn_level l) 1) (fun lv' =>
  sbind (cadd (sn_count l) (sn_count r)) (fun c => Some (SNode lv' c (H (sn_hash l ++ sn_hash r)))))))).
(** MessageProofLib.sol 65-77: one level; at most [t] turns *)
Fixpoint level_turns (fuel : nat) (i t j w : Z) (q : squeue) : option squeue :=
  if t <=? j then Some q else
  match fuel with
  | O => None
  | S f =>
      sbind (q_pop q) (fun x => let (l, q) := x in
      sbind (csub w 1) (fun w =>
      if (sn_level l <=? i + 1) && (0 <? w) then
        sbind (q_pop q) (fun y => let (r, q) := y in
        sbind (s_concat l r) (fun l =>
        sbind (csub w 1) (fun w =>
        sbind (q_push q l) (fun q => level_turns f i t (j + 2) w q))))
      else sbind (q_push q l) (fun q => level_turns f i t (j + 1) w q)))
  end.
(** MessageProofLib.sol 63-78: the levels from [i] on, [n] of them *)
Fixpoint levels (n : nat) (i : Z) (q : squeue) : option squeue :=
  match n with
  | O => Some q
  | S n' => sbind (level_turns (q_len q) i (Z.of_nat (q_len q)) 0 (Z.of_nat (q_len q)) q) (fun q' => levels n' (i + 1) q')
  end.
(** MessageProofLib.sol 132-153 *)
Fixpoint push_all (q : squeue) (l : list snode) : option squeue :=
  match l with [] => Some q | x :: r => sbind (q_push q x) (fun q' => push_all q' r) end.
Definition toQueue (p : sproof) : option squeue :=
  let n := (length (sp_lefts p) + length (sp_mesgs p) + length (sp_rights p))%nat in
  sbind (push_all (SQueue 0 0 0 (repeat (SNode 0 0 zero32) n)) (sp_lefts p)) (fun q =>
  sbind (push_all q (map (fun m => SNode 1 1 (H m)) (sp_mesgs p))) (fun q => push_all q (sp_rights p))).
(** MessageProofLib.sol 47-51 *)
Fixpoint getLeafCount (l : list snode) (a : Z) : option Z :=
  match l with [] => Some a | x :: r => sbind (cadd a (sn_count x)) (getLeafCount r) end.
(** MessageProofLib.sol 56-61: one more than the number of binary digits *)
Fixpoint maxLevel (fuel : nat) (t n : Z) : Z :=
  match fuel with O => n | S f => if t =? 0 then n else maxLevel f (Z.shiftr t 1) (n + 1) end.
(** MessageProofLib.sol 53-81 *)
Definition s_calculate (p : sproof) : option (list Z * Z) :=
  sbind (toQueue p) (fun q =>
  sbind (getLeafCount (q_nodes q) 0) (fun n =>
  sbind (levels (Z.to_nat (maxLevel 256 n 1)) 0 q) (fun q =>
  sbind (require (q_len q =? 1)%nat) (fun _ =>
  sbind (q_pop q) (fun x => Some (sn_hash (fst x), n)))))).
End Hash.

(** * BlockUpdateLib.sol, MerkleTreeLib.sol *)
(** BlockUpdateLib.sol 8-20 *)
Record sheader := SHeader { sh_height : Z; sh_round : Z; sh_ctx : list Z; sh_path : list (Z * list Z); sh_nid : Z; sh_sn : Z; sh_upd : bool;
  sh_prev : list Z; sh_cnt : Z; sh_root : list Z; sh_vals : list Z }.

Section Decode.
Variable junk : list Z -> mem.
(** BlockUpdateLib.sol 109-117 *)
Definition decodePath (b : list Z) : option (list (Z * list Z)) :=
  sbind (list_of junk b) (map_opt (fun it => sbind (toList it) (fun m =>
    sbind (at_index m 0) (fun m0 => sbind (toUint m0) (fun d => sbind (at_index m 1) (fun m1 => sbind (toBytes m1) (fun h => Some (d, to32 h)))))))).
(** BlockUpdateLib.sol 119-129 *)
Definition decodeValidators (b : list Z) : option (list Z) :=
  sbind (list_of junk b) (fun tl => sbind (at_index tl 0) (fun t0 => sbind (toList t0) (map_opt toAddress))).
(** item.payloadLen() > 0 ? f : d *)
Definition if_payload {A} (it : sitem) (f : option A) (d : A) : option A := sbind (payloadLen it) (fun n => if 0 <? n then f else Some d).
(** BlockUpdateLib.sol 36-54 *)
Definition decodeHeader (b : list Z) : option sheader :=
  sbind (list_of junk b) (fun l =>
  sbind (at_index l 0) (fun l0 => sbind (toUint l0) (fun height =>
  sbind (at_index l 1) (fun l1 => sbind (toUint l1) (fun round =>
  sbind (at_index l 2) (fun l2 => sbind (toBytes l2) (fun ctx =>
  sbind (at_index l 3) (fun l3 => sbind (if_payload l3 (decodePath (toRlpBytes l3)) []) (fun path =>
  sbind (at_index l 4) (fun l4 => sbind (toUint l4) (fun nid =>
  sbind (at_index l 5) (fun l5 => sbind (toUint l5) (fun upd =>
  sbind (at_index l 6) (fun l6 => sbind (if_payload l6 (sbind (toBytes l6) (fun h => Some (to32 h))) zero32) (fun prev =>
  sbind (at_index l 7) (fun l7 => sbind (toUint l7) (fun cnt =>
  sbind (at_index l 8) (fun l8 => sbind (if_payload l8 (sbind (toBytes l8) (fun h => Some (to32 h))) zero32) (fun root =>
  let flag := Z.land upd 1 =? 1 in
  sbind (if flag then sbind (at_index l 9) (fun l9 => sbind (toBytes l9) decodeValidators) else Some []) (fun vals =>
  Some (SHeader height round (to32 ctx) path nid (Z.shiftr upd 1) flag prev cnt root vals))))))))))))))))))))).
(** BlockUpdateLib.sol 56-68 *)
Definition decodeProof (b : list Z) : option (list (list Z)) :=
  sbind (list_of junk b) (fun tl => sbind (at_index tl 0) (fun t0 => sbind (toList t0) (map_opt (fun it => if_payload it (toBytes it) [])))).
(** BlockUpdateLib.sol 30-34 *)
Definition decodeBlockUpdate (b : list Z) : option (sheader * list (list Z)) :=
  sbind (list_of junk b) (fun l =>
  sbind (at_index l 0) (fun l0 => sbind (toBytes l0) (fun hb => sbind (decodeHeader hb) (fun h =>
  sbind (at_index l 1) (fun l1 => sbind (toBytes l1) (fun pb => sbind (decodeProof pb) (fun p => Some (h, p)))))))).
(** MessageProofLib.sol 155-163 *)
Definition decodeNodes (its : list sitem) : option (list snode) :=
  map_opt (fun it => sbind (toList it) (fun t => sbind (at_index t 0) (fun t0 => sbind (toUint t0) (fun n =>
    sbind (at_index t 1) (fun t1 => sbind (toBytes t1) (fun h => Some (SNode (levelOf n) n (to32 h)))))))) its.
(** MessageProofLib.sol 31-44 *)
Definition decodeMessageProof (b : list Z) : option sproof :=
  sbind (list_of junk b) (fun tl =>
  sbind (at_index tl 1) (fun t1 => sbind (toList t1) (fun ms =>
  sbind (at_index tl 0) (fun t0 => sbind (toList t0) (fun ls => sbind (decodeNodes ls) (fun lefts =>
  sbind (at_index tl 2) (fun t2 => sbind (toList t2) (fun rs => sbind (decodeNodes rs) (fun rights =>
  sbind (map_opt toBytes ms) (fun mesgs => Some (SProof lefts mesgs rights))))))))))).
(** RelayMessageLib.sol 20-33 *)
Definition decodeTyped (b : list Z) : option (list (Z * list Z)) :=
  sbind (list_of junk b) (fun tl => sbind (at_index tl 0) (fun t0 => sbind (toList t0) (map_opt (fun it => sbind (toList it) (fun ms =>
    sbind (at_index ms 0) (fun m0 => sbind (toUint m0) (fun ty => sbind (at_index ms 1) (fun m1 => sbind (toBytes m1) (fun m => Some (ty, m)))))))))).
End Decode.

Section Contract.
Variable H : list Z -> list Z.
Variable junk : list Z -> mem.
Variable ecrecover : list Z -> Z -> list Z -> list Z -> Z. (* digest, v, r, s *)

(** abi.encodePacked(h), or null for 0 *)
Definition hash_or_null (h : list Z) : list Z := if bytes_eqb h zero32 then encodeNull else encodeBytes h.
(** BlockUpdateLib.sol 70-82 *)
Definition s_sectionHash (h : sheader) : option (list Z) :=
  sbind (encodeUint (sh_nid h)) (fun n0 =>
  sbind (encodeUint (Z.lor ((sh_sn h * 2) mod 2 ^ 256) (if sh_upd h then 1 else 0))) (fun n1 =>
  sbind (encodeUint (sh_cnt h)) (fun n3 =>
  Some (H (encodeList [n0; n1; hash_or_null (sh_prev h); n3; hash_or_null (sh_root h)]))))).
(** MerkleTreeLib.sol 10-18 *)
Definition s_pathRoot (leaf : list Z) (path : list (Z * list Z)) : list Z :=
  fold_left (fun t p => if fst p =? 0 then H (snd p ++ t) else H (t ++ snd p)) path leaf.
(** BlockUpdateLib.sol 84-107 *)
Definition s_decision (src : list Z) (ntid : Z) (h : sheader) : option (list Z) :=
  sbind (encodeUint ntid) (fun n1 =>
  sbind (encodeUint (sh_height h)) (fun n2 =>
  sbind (encodeUint (sh_round h)) (fun n3 =>
  sbind (s_sectionHash h) (fun ns =>
  let nts := H (encodeList [encodeBytes (sh_ctx h); encodeBytes (s_pathRoot ns (sh_path h))]) in
  Some (H (encodeList [encodeString src; n1; n2; n3; encodeBytes nts])))))).

(** Utils.sol 5-30 *)
Definition recoverSigner (d sig : list Z) : option Z :=
  sbind (require (zlen sig =? 65)) (fun _ =>
  sbind (at_index sig 64) (fun v =>
  sbind (require (v + 27 <? 256)) (fun _ => Some (ecrecover d (v + 27) (firstn 32 sig) (firstn 32 (skipn 32 sig)))))).
(** BtpMessageVerifier.sol 184-186 *)
Definition hasQuorumOf (n votes : Z) : bool := n * 2 <? votes * 3.
(** BtpMessageVerifier.sol 199-206: the loop, from position [i] on *)
Fixpoint count_signers (d : list Z) (vals : list Z) (i : nat) (votes : Z) (sigs : list (list Z)) : option Z :=
  match sigs with
  | [] => Some votes
  | s :: r => if hasQuorumOf (zlen vals) votes then Some votes
              else sbind (recoverSigner d s) (fun a => sbind (at_index vals i) (fun v =>
                   count_signers d vals (S i) (if a =? v then votes + 1 else votes) r))
  end.
(** BtpMessageVerifier.sol 196-208 *)
Definition checkBlockProof (src : list Z) (ntid : Z) (h : sheader) (sigs : list (list Z)) (vals : list Z) : option unit :=
  sbind (s_decision src ntid h) (fun d => sbind (count_signers d vals 0 0 sigs) (fun votes => require (hasQuorumOf (zlen vals) votes))).
(** BtpMessageVerifier.sol 188-194 *)
Definition checkMessageSn (expected actual : Z) : option unit := require (expected =? actual).

(** BtpMessageVerifier.sol 25-33 *)
Record sdb := SDb { d_hash : list Z; d_root : list Z; d_height : Z; d_cnt : Z; d_first : Z; d_next : Z; d_vals : list Z }.
(** BtpMessageVerifier.sol 17-22 *)
Record sbmv := SBmv { k_bmc : Z; k_ntid : Z; k_nid : Z; k_off : Z; k_src : list Z; k_db : sdb }.
(** BtpMessageVerifier.sol 49-74 *)
Definition s_construct (bmc : Z) (src : list Z) (ntid : Z) (first : list Z) (off : Z) : option sbmv :=
  sbind (decodeHeader junk first) (fun h =>
  sbind (require (0 <? zlen (sh_vals h))) (fun _ =>
  sbind (s_sectionHash h) (fun ns =>
  Some (SBmv bmc ntid (sh_nid h) off src (SDb ns (sh_root h) (sh_height h) (sh_cnt h) (sh_sn h) (sh_sn h) (sh_vals h)))))).

(** BtpMessageVerifier.sol 97-116 *)
Definition s_update (k : sbmv) (db : sdb) (rem : Z) (h : sheader) (sigs : list (list Z)) : option (sdb * Z) :=
  sbind (require (rem =? 0)) (fun _ =>
  sbind (require (k_nid k =? sh_nid h)) (fun _ =>
  sbind (require (bytes_eqb (d_hash db) (sh_prev h))) (fun _ =>
  sbind (checkMessageSn (d_next db) (sh_sn h)) (fun _ =>
  sbind (checkBlockProof (k_src k) (k_ntid k) h sigs (d_vals db)) (fun _ =>
  sbind (s_sectionHash h) (fun ns =>
  let vals := if sh_upd h then sh_vals h else d_vals db in
  if bytes_eqb (sh_root h) zero32 then Some (SDb ns (d_root db) (sh_height h) (d_cnt db) (d_first db) (d_next db) vals, rem)
  else sbind (cadd (d_first db) (d_cnt db)) (fun sn =>
       sbind (checkMessageSn sn (sh_sn h)) (fun _ =>
       Some (SDb ns (sh_root h) (sh_height h) (sh_cnt h) (sh_sn h) (d_next db) vals, sh_cnt h))))))))).
(** BtpMessageVerifier.sol 118-123 *)
Definition s_messages (db : sdb) (rem : Z) (p : sproof) : option (sdb * Z) :=
  sbind (s_calculate H p) (fun x =>
  sbind (require (bytes_eqb (fst x) (d_root db) && (snd x =? d_cnt db))) (fun _ =>
  sbind (csub rem (zlen (sp_mesgs p))) (fun rem' =>
  sbind (cadd (d_next db) (zlen (sp_mesgs p))) (fun next =>
  Some (SDb (d_hash db) (d_root db) (d_height db) (d_cnt db) (d_first db) next (d_vals db), rem'))))).
(** BtpMessageVerifier.sol 95-125: the loop over the relay message; Utils.sol 32-47 appends *)
Fixpoint s_items (k : sbmv) (db : sdb) (rem : Z) (acc : list (list Z)) (l : list (Z * list Z)) : option (sdb * list (list Z)) :=
  match l with
  | [] => Some (db, acc)
  | (ty, b) :: r =>
      if ty =? 1 then
        sbind (decodeBlockUpdate junk b) (fun u => sbind (s_update k db rem (fst u) (snd u)) (fun x => s_items k (fst x) (snd x) acc r))
      else if ty =? 2 then
        sbind (decodeMessageProof junk b) (fun p => sbind (s_messages db rem p) (fun x => s_items k (fst x) (snd x) (acc ++ sp_mesgs p) r))
      else s_items k db rem acc r
  end.
(** BtpMessageVerifier.sol 35-47, 84-138 *)
Definition s_handle (k : sbmv) (sender : Z) (prev : list Z) (sn : Z) (msg : list Z) : option (sbmv * list (list Z)) :=
  sbind (require (sender =? k_bmc k)) (fun _ =>
  sbind (splitBTPAddress prev) (fun na =>
  sbind (require (bytes_eqb (H (k_src k)) (H (fst na)))) (fun _ =>
  let db := k_db k in
  sbind (csub sn (k_off k)) (fun n =>
  sbind (require (d_next db =? n)) (fun _ =>
  sbind (csub (d_next db) (d_first db)) (fun done =>
  sbind (csub (d_cnt db) done) (fun rem =>
  sbind (decodeTyped junk msg) (fun rms =>
  sbind (s_items k db rem [] rms) (fun x =>
  let d := fst x in
  Some (SBmv (k_bmc k) (k_ntid k) (k_nid k) (k_off k) (k_src k)
             (SDb (d_hash d) (d_root d) (if d_height d =? 0 then d_height db else d_height d) (d_cnt d) (d_first d) (d_next d) (d_vals d)), snd x)))))))))).

(** Transactions one after the other; a reverted one changes nothing. *)
Record scall := SCall { sc_sender : Z; sc_prev : list Z; sc_sn : Z; sc_msg : list Z }.
Fixpoint s_run (k : sbmv) (cs : list scall) : sbmv * list (list Z) :=
  match cs with
  | [] => (k, [])
  | c :: r => match s_handle k (sc_sender c) (sc_prev c) (sc_sn c) (sc_msg c) with
              | None => s_run k r
              | Some (k', ms) => let (q, out) := s_run k' r in (q, ms ++ out)
              end
  end.
End Contract.
