(** Model of common/mta/accumulator.go and common/mta/extaccumulator.go: the Merkle tree accumulator.

    - crypto.SHA3Sum256 is the parameter [H].
    - A bucket is a function from keys to values; a missing key reads as the empty value, which is what
      db.Bucket.Get returns (nil, nil).  All nodes of an accumulator share its bucket, so the bucket field of
      the nodes is not repeated.
    - Writes go to a [world] that can perform only [w_budget] more writes: a failing write stands for an
      I/O error or for the process dying at that point.
    - Nodes are mutated in place in Go (cached hashes, resolved children).  No two owners share a node, so a
      function here returns the new node.
    - encoding/json for the state record is a pair of functions (parameters of the definitions that use it). *)
From Coq Require Import String Ascii ZArith List Bool.
From Verif Require Import Base M_IntConv M_Codec.
Import ListNotations.
Open Scope Z_scope.

Definition store := list Z -> list Z.
Definition bset (st : store) (k v : list Z) : store := fun k' => if bytes_eqb k k' then v else st k'.
Record world := { w_store : store; w_budget : nat }.
Definition wset (w : world) (k v : list Z) : option world :=
  match w_budget w with
  | O => None
  | S b => Some {| w_store := bset (w_store w) k v; w_budget := b |}
  end.

(** accumulator.go 14-16 *)
Definition HashSize : nat := 32.

(** accumulator.go 18-24 *)
Inductive state := stateDirty | stateHashed | stateFlushed.
Definition below_hashed (s : state) : bool := match s with stateDirty => true | _ => false end.
Definition is_flushed (s : state) : bool := match s with stateFlushed => true | _ => false end.

(** accumulator.go 26-31, 44-47 *)
Definition Left : Z := 0.
Definition Right : Z := 1.
Record witness := { w_dir : Z; w_hash : list Z }.

(** accumulator.go 59-62 hashNode, 115-121 branchNode, 184-189 dataNode *)
Inductive node :=
| HNode (h : list Z)
| BNode (s : state) (h ser : list Z) (l r : node)
| DNode (s : state) (h data : list Z).

(** Go's copy(dst, src) *)
Definition go_copy (dst src : list Z) : list Z := firstn (length dst) src ++ skipn (length src) dst.
(** copy(dst, a); copy(dst[HashSize:], b) *)
Definition copy2 (dst a b : list Z) : list Z :=
  let d := go_copy dst a in firstn HashSize d ++ go_copy (skipn HashSize d) b.
(** make([]byte, 2*HashSize) *)
Definition zeros64 : list Z := repeat 0 64.

Section Model.
Context (H : list Z -> list Z).

(** accumulator.go 64-69 (hashNode), 128-141 (branchNode), 202-211 (dataNode): the hash and the node with
    the hash cached. *)
Fixpoint node_Hash (n : node) : list Z * node :=
  match n with
  | HNode h => (h, n)
  | BNode s h ser l r =>
      if below_hashed s then
        let (lh, l') := node_Hash l in
        let (rh, r') := node_Hash r in
        let bs := copy2 zeros64 lh rh in
        (H bs, BNode stateHashed (H bs) bs l' r')
      else (h, n)
  | DNode s h d => if below_hashed s then (H d, DNode stateHashed (H d) d) else (h, n)
  end.

(** the field n.serialized after Hash() *)
Definition serialized_of (n : node) : list Z := match n with BNode _ _ ser _ _ => ser | _ => [] end.
Definition set_flushed (n : node) : node :=
  match n with
  | BNode _ h ser l r => BNode stateFlushed h ser l r
  | DNode _ h d => DNode stateFlushed h d
  | HNode h => HNode h
  end.

(** accumulator.go 71-73 (hashNode), 143-162 (branchNode), 213-222 (dataNode).  The boolean is "no error". *)
Fixpoint node_Flush (w : world) (n : node) : world * node * bool :=
  match n with
  | HNode _ => (w, n, true)
  | BNode s h ser l r =>
      if is_flushed s then (w, n, true) else
      match node_Flush w l with
      | (w1, l', false) => (w1, BNode s h ser l' r, false)
      | (w1, l', true) =>
          match node_Flush w1 r with
          | (w2, r', false) => (w2, BNode s h ser l' r', false)
          | (w2, r', true) =>
              let (hv, n') := node_Hash (BNode s h ser l' r') in
              match wset w2 hv (serialized_of n') with
              | None => (w2, n', false)
              | Some w3 => (w3, set_flushed n', true)
              end
          end
      end
  | DNode s h d =>
      if is_flushed s then (w, n, true) else
      let (hv, n') := node_Hash n in
      match wset w hv d with
      | None => (w, n', false)
      | Some w' => (w', set_flushed n', true)
      end
  end.

(** 1 << uint(d) as int64 *)
Definition shl (d : nat) : Z := i64 (2 ^ Z.of_nat d).

(** accumulator.go 79-102 *)
Definition resolve (st : store) (h : list Z) : option (list Z * list Z * list Z) :=
  let bs := st h in
  if (length bs =? 2 * HashSize)%nat then Some (bs, firstn HashSize bs, skipn HashSize bs) else None.

(** accumulator.go 104-113 (hashNode), 164-182 (branchNode), 191-196 (dataNode).  [depth] is never negative
    because the accumulator starts with a slot number. *)
Fixpoint node_WitnessFor (st : store) (depth : nat) (idx : Z) (n : node) (w : list witness)
  : node * result (list witness) :=
  match depth with
  | O => match n with
         | BNode _ _ _ _ _ => (n, Err 1)
         | _ => (n, Ok w)
         end
  | S d =>
      let branch s h ser l r :=
        let bound := shl d in
        if idx <? bound then
          let (l', res) := node_WitnessFor st d idx l w in
          match res with
          | Ok w' => let (rh, r') := node_Hash r in
                     (BNode s h ser l' r', Ok (w' ++ [{| w_dir := Right; w_hash := rh |}]))
          | Err e => (BNode s h ser l' r, Err e)
          | Panic => (BNode s h ser l' r, Panic)
          end
        else
          let (r', res) := node_WitnessFor st d (i64 (idx - bound)) r w in
          match res with
          | Ok w' => let (lh, l') := node_Hash l in
                     (BNode s h ser l' r', Ok (w' ++ [{| w_dir := Left; w_hash := lh |}]))
          | Err e => (BNode s h ser l r', Err e)
          | Panic => (BNode s h ser l r', Panic)
          end in
      match n with
      | HNode h => match resolve st h with
                   | Some (bs, x, y) => branch stateFlushed h bs (HNode x) (HNode y)
                   | None => (n, Err 2)
                   end
      | BNode s h ser l r => branch s h ser l r
      | DNode _ _ _ => (n, Err 1)
      end
  end.

(** accumulator.go 526-555 *)
Fixpoint GetNode (st : store) (depth : nat) (idx : Z) (p : node) : result node :=
  match depth with
  | O => match p with BNode _ _ _ _ _ => Err 1 | _ => Ok p end
  | S d =>
      let branch l r := if idx <? shl d then GetNode st d idx l else GetNode st d (i64 (idx - shl d)) r in
      match p with
      | HNode h => match resolve st h with Some (_, x, y) => branch (HNode x) (HNode y) | None => Err 2 end
      | BNode _ _ _ l r => branch l r
      | DNode _ _ _ => Err 1
      end
  end.

(** accumulator.go 224-229; a slot is nil or a node *)
Record acc := { a_roots : list (option node); a_length : Z }.
Definition new_acc : acc := {| a_roots := []; a_length := 0 |}.

(** accumulator.go 240-268: [rs] is a.roots[h:], the slots below [h] are untouched by the recursion. *)
Fixpoint addNode (rs : list (option node)) (n : node) (w : list witness) : list (option node) * list witness :=
  match rs with
  | [] => ([Some n], w)
  | None :: rs' => (Some n :: rs', w)
  | Some root :: rs' =>
      let (rh, root') := node_Hash root in
      if (length rh =? 0)%nat then (Some n :: rs', w)
      else
        let (rs'', w') := addNode rs' (BNode stateDirty [] [] root' n) (w ++ [{| w_dir := Left; w_hash := rh |}]) in
        (None :: rs'', w')
  end.

(** accumulator.go 326-347 *)
Definition AddNode (a : acc) (n : node) : acc * list witness :=
  let (rs, w) := addNode (a_roots a) n [] in
  ({| a_roots := rs; a_length := i64 (a_length a + 1) |}, w).
Definition AddHash (a : acc) (h : list Z) : acc * list witness := AddNode a (HNode h).
Definition AddData (a : acc) (d : list Z) : acc * list witness := AddNode a (DNode stateDirty [] d).

(** Replacing slot [i]. *)
Fixpoint set_slot (i : nat) (n : option node) (rs : list (option node)) : list (option node) :=
  match i, rs with
  | O, _ :: rs' => n :: rs'
  | S i', x :: rs' => x :: set_slot i' n rs'
  | _, [] => []
  end.

(** accumulator.go 349-371: the loop over the slots from the highest down; [offset] slots remain. *)
Fixpoint WitnessFor_loop (st : store) (rs : list (option node)) (offset : nat) (idx : Z)
  : list (option node) * result (list witness) :=
  match offset with
  | O => (rs, Err 3)
  | S o =>
      match nth_error rs o with
      | Some (Some root) =>
          if idx <? shl o then
            let (root', res) := node_WitnessFor st o idx root [] in (set_slot o (Some root') rs, res)
          else WitnessFor_loop st rs o (i64 (idx - shl o))
      | _ => WitnessFor_loop st rs o idx
      end
  end.
Definition WitnessFor (st : store) (a : acc) (idx : Z) : acc * result (list witness) :=
  if a_length a <=? idx then (a, Err 3) else
  let (rs, res) := WitnessFor_loop st (a_roots a) (length (a_roots a)) idx in
  ({| a_roots := rs; a_length := a_length a |}, res).

(** accumulator.go 442-459 *)
Fixpoint acc_GetNode_loop (st : store) (rs : list (option node)) (offset : nat) (idx : Z) : result node :=
  match offset with
  | O => Err 3
  | S o =>
      match nth_error rs o with
      | Some (Some root) => if idx <? shl o then GetNode st o idx root else acc_GetNode_loop st rs o (i64 (idx - shl o))
      | _ => acc_GetNode_loop st rs o idx
      end
  end.
Definition acc_GetNode (st : store) (a : acc) (idx : Z) : result node :=
  if a_length a <=? idx then Err 3 else acc_GetNode_loop st (a_roots a) (length (a_roots a)) idx.

(** accumulator.go 506-524.  First loop: the number of shifts until the value is no longer positive. *)
Fixpoint depth_count (fuel : nat) (v : Z) : nat :=
  match fuel with
  | O => O
  | S f => if 0 <? v then S (depth_count f (Z.shiftr v 1)) else O
  end.
Fixpoint depth_loop (depth : nat) (height accLength : Z) : nat :=
  match depth with
  | O => O
  | S d =>
      let bitFlag := shl d in
      if Z.land accLength bitFlag =? bitFlag then
        if height <? bitFlag then d else depth_loop d (i64 (height - bitFlag)) accLength
      else depth_loop d height accLength
  end.
Definition GetDepthByHeightAndAccLength (height accLength : Z) : nat :=
  depth_loop (depth_count 64 accLength) height accLength.

(** w[:depth]; capacity taken to be the length *)
Definition cut {A} (l : list A) (d : nat) : result (list A) :=
  if (d <=? length l)%nat then Ok (firstn d l) else Panic.

(** accumulator.go 373-379 *)
Definition WitnessForWithAccLength (st : store) (a : acc) (idx accLength : Z) : acc * result (list witness) :=
  let (a', res) := WitnessFor st a idx in
  (a', rbind res (fun w => cut w (GetDepthByHeightAndAccLength idx accLength))).

(** accumulator.go 381-406: [buf] is one buffer for all rounds. *)
Fixpoint verify_loop (ws : list witness) (buf h : list Z) : list Z :=
  match ws with
  | [] => h
  | w :: ws' =>
      let buf' := if w_dir w =? Left then copy2 buf (w_hash w) h else copy2 buf h (w_hash w) in
      verify_loop ws' buf' (H buf')
  end.
Definition Verify (a : acc) (ws : list witness) (h : list Z) : result unit :=
  match nth_error (a_roots a) (length ws) with
  | None => Err 4
  | Some None => Err 5
  | Some (Some root) => if bytes_eqb (fst (node_Hash root)) (verify_loop ws zeros64 h) then Ok tt else Err 6
  end.

(** accumulator.go 483-504.  int is 64 bits wide. *)
Fixpoint height_loop (ws : list witness) (i : nat) (idx offset accLength : Z) : Z :=
  match ws with
  | [] => i64 (accLength - 1 - i64 (idx + offset))
  | w :: ws' =>
      let bitFlag := shl i in
      let idx' := if w_dir w =? Right then Z.lor idx bitFlag else idx in
      let offset' := if Z.land accLength bitFlag =? 0 then offset else i64 (offset + bitFlag) in
      height_loop ws' (S i) idx' offset' accLength
  end.
Definition GetHeightFromWitness (ws : list witness) (accLength : Z) : Z := height_loop ws 0 0 0 accLength.

(** accumulator.go 420-422: nws[i] = w for every i *)
Fixpoint overwrite (nws ws : list witness) : result (list witness) :=
  match ws, nws with
  | [], _ => Ok nws
  | w :: ws', _ :: nws' => rbind (overwrite nws' ws') (fun l => Ok (w :: l))
  | _ :: _, [] => Panic
  end.

(** accumulator.go 428-437: i runs from len(roots)-1 down to 1 *)
Fixpoint old_depth_loop (i : nat) (height : Z) : nat :=
  match i with
  | O => O
  | S i' => let bitFlag := shl i in if height <? bitFlag then i else old_depth_loop i' (i64 (height - bitFlag))
  end.

(** accumulator.go 408-440 *)
Definition VerifyWithAccLength (st : store) (a : acc) (ws : list witness) (h : list Z) (accLength : Z)
  : acc * result unit :=
  if a_length a =? accLength then (a, Verify a ws h) else
  let height := GetHeightFromWitness ws accLength in
  if a_length a <=? height then (a, Err 7) else
  if accLength <? a_length a then
    let (a', res) := WitnessFor st a height in
    (a', rbind res (fun nws => rbind (overwrite nws ws) (fun nws' => Verify a' nws' h)))
  else
    let depth := old_depth_loop (length (a_roots a) - 1) height in
    (a, rbind (cut ws depth) (fun ws' => Verify a ws' h)).

(** accumulator.go 461-481 *)
Definition WitnessesToHashes (w : list witness) : list (list Z) := map w_hash w.
Fixpoint HashesToWitness (hvs : list (list Z)) (idx : Z) : list witness :=
  match hvs with
  | [] => []
  | hv :: r => {| w_dir := if Z.rem idx 2 =? 0 then Right else Left; w_hash := hv |} :: HashesToWitness r (Z.quot idx 2)
  end.

(** accumulator.go 275-285 and extaccumulator.go 43-52: flush the roots in order, collecting their hashes
    (empty for nil).  On an error the slots after the failing one are unchanged. *)
Fixpoint flush_roots (w : world) (rs : list (option node)) : world * list (option node) * list (list Z) * bool :=
  match rs with
  | [] => (w, [], [], true)
  | None :: rs' =>
      match flush_roots w rs' with (w', rs'', hs, ok) => (w', None :: rs'', [] :: hs, ok) end
  | Some n :: rs' =>
      match node_Flush w n with
      | (w1, n', false) => (w1, Some n' :: rs', [], false)
      | (w1, n', true) =>
          let (hv, n'') := node_Hash n' in
          match flush_roots w1 rs' with (w', rs'', hs, ok) => (w', Some n'' :: rs'', hv :: hs, ok) end
      end
  end.

(** accumulator.go 270-295.  [jenc] is json.Marshal of the record: the roots and the text of the length. *)
Definition acc_Flush (jenc : list (list Z) -> list Z -> list Z) (key : list Z) (w : world) (a : acc) : world * acc * bool :=
  match flush_roots w (a_roots a) with
  | (w1, rs, hs, ok) =>
      let a' := {| a_roots := rs; a_length := a_length a |} in
      if ok then
        match wset w1 key (jenc hs (FormatInt (a_length a))) with
        | None => (w1, a', false)
        | Some w2 => (w2, a', true)
        end
      else (w1, a', false)
  end.

(** accumulator.go 311-321 and extaccumulator.go 87-97 *)
Definition root_of_hash (hv : list Z) : option node := if (length hv =? HashSize)%nat then Some (HNode hv) else None.

(** accumulator.go 297-324.  [jdec] is json.Unmarshal: roots and length text. *)
Definition acc_Recover (jdec : list Z -> option (list (list Z) * list Z)) (key : list Z) (st : store) : result acc :=
  let bs := st key in
  if (length bs =? 0)%nat then Ok new_acc else
  match jdec bs with
  | None => Err 8
  | Some (roots, txt) =>
      match ParseInt txt 64 with
      | None => Err 9
      | Some n => Ok {| a_roots := map root_of_hash roots; a_length := n |}
      end
  end.

(** ** extaccumulator.go *)

(** extaccumulator.go 11-19 (serialized not kept) *)
Record ext := { x_acc : acc; x_offset : Z; x_limit : Z }.
(** extaccumulator.go 178-186 *)
Definition NewExt (offset : Z) : ext := {| x_acc := new_acc; x_offset := offset; x_limit := 0 |}.
(** extaccumulator.go 31-33 *)
Definition x_Height (x : ext) : Z := i64 (a_length (x_acc x) + x_offset x).

(** extaccumulator.go 110-137 *)
Definition x_AddHash (x : ext) (h : list Z) : ext * list witness :=
  let (a, w) := AddHash (x_acc x) h in ({| x_acc := a; x_offset := x_offset x; x_limit := x_limit x |}, w).
Definition x_AddData (x : ext) (d : list Z) : ext * list witness :=
  let (a, w) := AddData (x_acc x) d in ({| x_acc := a; x_offset := x_offset x; x_limit := x_limit x |}, w).

Definition with_acc (x : ext) (a : acc) : ext := {| x_acc := a; x_offset := x_offset x; x_limit := x_limit x |}.

(** extaccumulator.go 139-157 *)
Definition x_WitnessForAt (st : store) (x : ext) (height at_ offset : Z) : ext * result (Z * list witness) :=
  if offset <? x_offset x then (x, Err 10)
  else if x_offset x <? offset then (x, Err 11)
  else
    let idx := i64 (height - 1 - x_offset x) in
    let accLength := i64 (at_ - x_offset x) in
    let n := a_length (x_acc x) in
    let accLength' := if n <? accLength then n else accLength in
    let at' := if n <? accLength then i64 (n + x_offset x) else at_ in
    let (a, res) := WitnessForWithAccLength st (x_acc x) idx accLength' in
    (with_acc x a, rbind res (fun w => Ok (at', w))).

(** extaccumulator.go 159-172 *)
Definition x_VerifyAt (st : store) (x : ext) (w : list witness) (h : list Z) (at_ offset : Z) : ext * result unit :=
  if offset <? x_offset x then (x, Err 10)
  else if x_offset x <? offset then (x, Err 11)
  else
    let accLength := i64 (at_ - x_offset x) in
    let n := a_length (x_acc x) in
    let accLength' := if n <? accLength then n else accLength in
    let (a, res) := VerifyWithAccLength st (x_acc x) w h accLength' in (with_acc x a, res).

(** extaccumulator.go 174-176 *)
Definition x_GetNode (st : store) (x : ext) (height : Z) : result node :=
  acc_GetNode st (x_acc x) (i64 (height - 1 - x_offset x)).

(** extaccumulator.go 21-29, as a value of the codec *)
Definition ext_ty : ty := TStruct [TInt 64; TSlice TBytes; TInt 64; TInt 64].
Definition ext_val (x : ext) (hs : list (list Z)) : val :=
  VStruct [VInt (x_Height x); VSlice (Some (map (fun h => VBytes (match h with [] => None | _ => Some h end)) hs));
           VInt (x_offset x); VInt (x_limit x)].

(** extaccumulator.go 43-71 *)
Definition x_Flush (key : list Z) (w : world) (x : ext) : world * ext * bool :=
  match flush_roots w (a_roots (x_acc x)) with
  | (w1, rs, hs, ok) =>
      let x' := with_acc x {| a_roots := rs; a_length := a_length (x_acc x) |} in
      if ok then
        match wset w1 key (MarshalToBytes (ext_val x hs)) with
        | None => (w1, x', false)
        | Some w2 => (w2, x', true)
        end
      else (w1, x', false)
  end.

Definition bytes_of_val (v : val) : list Z := match v with VBytes (Some b) => b | _ => [] end.

(** extaccumulator.go 73-108; the accumulator is already overwritten when the offset turns out to differ. *)
Definition x_Recover (key : list Z) (st : store) (x : ext) : ext * result unit :=
  let bs := st key in
  if (length bs =? 0)%nat then (with_acc x new_acc, Ok tt) else
  match UnmarshalFromBytes ext_ty bs with
  | Ok (VStruct [VInt height; VSlice roots; VInt offset; VInt limit], _) =>
      let hs := match roots with Some vs => map bytes_of_val vs | None => [] end in
      let x' := with_acc x {| a_roots := map root_of_hash hs; a_length := i64 (height - offset) |} in
      if x_offset x <? offset then (x', Err 12)
      else if offset <? x_offset x then (x', Err 13)
      else (x', Ok tt)
  | _ => (x, Err 8)
  end.

End Model.
