(** Model of common/mbt (Merkle binary tree).  [H] is the hash function on the concatenation of its
    arguments: hashFunc(a, b) writes a then b to one digest (common/mbt/tree.go:26-44), so it is
    [H (a ++ b)].  Nodes are values; the code mutates them in place but never shares a node between two
    trees.  [l] and [r] are always both nil or both set.  Integers are 64-bit and wrap. *)
From Coq Require Import String Ascii ZArith List Bool.
From Verif Require Import Base.
Import ListNotations.
Open Scope Z_scope.

(** common/mbt/tree.go:70-77 *)
Inductive node : Type :=
| Leaf (h : list Z) (level num : Z)                        (* l == nil && r == nil *)
| Branch (l r : node) (h : list Z) (level num : Z).

Definition n_h (n : node) := match n with Leaf h _ _ => h | Branch _ _ h _ _ => h end.
Definition n_level (n : node) := match n with Leaf _ l _ => l | Branch _ _ _ l _ => l end.
Definition n_num (n : node) := match n with Leaf _ _ m => m | Branch _ _ _ _ m => m end.

Definition empty_bytes (b : list Z) : bool := match b with [] => true | _ => false end.

(** 1 << s on a 64-bit int; a negative count panics (never the case here for level >= 2) *)
Definition shl1 (s : Z) : Z := i64 (2 ^ s).

(** common/mbt/proof.go:19-21: loop of NumberToLevel; 64 rounds suffice for a 64-bit number *)
Fixpoint ntl_loop (fuel : nat) (n l : Z) : Z :=
  match fuel with
  | O => l
  | S f => if n <=? 0 then l else ntl_loop f (Z.shiftr n 1) (l + 1)
  end.

(** common/mbt/proof.go:8-23 NumberToLevel *)
Definition NumberToLevel (n : Z) : Z :=
  if n =? 0 then 0
  else if n =? 1 then 1
  else if n =? 2 then 2
  else ntl_loop 64 (Z.shiftr (i64 (n - 1)) 2) 3.

(** &node{hashFunc: ...} *)
Definition new_node : node := Leaf [] 0 0.

(** common/mbt/tree.go:78-107 add *)
Fixpoint add (H : list Z -> list Z) (n : node) (h : list Z) : node :=
  match n with
  | Leaf h0 lv num =>
      if lv =? 0 then Leaf h 1 1
      else Branch n (Leaf h 1 1) (H (h0 ++ h)) (lv + 1) (i64 (num + 1))
  | Branch l r h0 lv num =>
      if lv =? 0 then Branch l r h 1 1
      else if negb (n_level l =? n_level r) then
        let r' := add H r h in
        Branch l r' (H (n_h l ++ n_h r')) lv (i64 (num + 1))
      else Branch n (Leaf h 1 1) (H (h0 ++ h)) (lv + 1) (i64 (num + 1))
  end.

(** common/mbt/tree.go:109-135 lazyAdd *)
Fixpoint lazyAdd (n : node) (m : Z) (h : list Z) : node :=
  match n with
  | Leaf _ lv num =>
      if lv =? 0 then Leaf h (NumberToLevel m) m
      else Branch n (Leaf h (NumberToLevel m) m) [] (lv + 1) (i64 (num + m))
  | Branch l r h0 lv num =>
      if lv =? 0 then Branch l r h (NumberToLevel m) m
      else if negb (n_num l =? n_num r) then Branch l (lazyAdd r m h) h0 lv (i64 (num + m))
      else Branch n (Leaf h (NumberToLevel m) m) [] (lv + 1) (i64 (num + m))
  end.

(** common/mbt/tree.go:137-150 ensureHash; a childless node without hash at branch level panics *)
Fixpoint ensureHash (H : list Z -> list Z) (force : bool) (n : node) : result node :=
  match n with
  | Leaf h lv num =>
      if lv <? 2 then Ok n
      else if force || empty_bytes h then Panic else Ok n
  | Branch l r h lv num =>
      if lv <? 2 then Ok n
      else if force || empty_bytes h then
        rbind (ensureHash H force l) (fun l' =>
        rbind (ensureHash H force r) (fun r' =>
        Ok (Branch l' r' (H (n_h l' ++ n_h r')) lv num)))
      else Ok n
  end.

(** common/mbt/tree.go:164-168; contents are non-nil *)
Record mbt := { m_root : option node; m_contents : list (list Z) }.

(** common/mbt/tree.go:170-180 Add; nil content is [None] *)
Definition mbt_Add (H : list Z -> list Z) (m : mbt) (content : option (list Z)) : result mbt :=
  match content with
  | None => Err 1
  | Some c =>
      let root := match m_root m with None => new_node | Some n => n end in
      Ok {| m_root := Some (add H root (H c)); m_contents := m_contents m ++ [c] |}
  end.

(** common/mbt/tree.go:182-184 *)
Definition mbt_Len (m : mbt) : Z := zlen (m_contents m).

(** common/mbt/tree.go:186-191; nil is [None] *)
Definition mbt_Root (m : mbt) : option (list Z) :=
  match m_root m with None => None | Some n => Some (n_h n) end.

(** common/mbt/tree.go:193-198 *)
Definition mbt_Get (m : mbt) (num : Z) : result (list Z) :=
  if (num <? 1) || (mbt_Len m <? num) then Err 2
  else match nth_error (m_contents m) (Z.to_nat (num - 1)) with Some c => Ok c | None => Panic end.

(** common/mbt/tree.go:207-225 NewMerkleBinaryTree, the loop over contents *)
Fixpoint New_loop (H : list Z -> list Z) (n : node) (cs : list (option (list Z))) : result (node * list (list Z)) :=
  match cs with
  | [] => Ok (n, [])
  | None :: _ => Err 1
  | Some c :: cs' => rbind (New_loop H (lazyAdd n 1 (H c)) cs') (fun p => Ok (fst p, c :: snd p))
  end.

Definition NewMerkleBinaryTree (H : list Z -> list Z) (contents : list (option (list Z))) : result mbt :=
  match contents with
  | [] => Ok {| m_root := None; m_contents := [] |}
  | _ => rbind (New_loop H new_node contents) (fun p =>
         rbind (ensureHash H false (fst p)) (fun r =>
         Ok {| m_root := Some r; m_contents := snd p |}))
  end.

(** common/mbt/proof.go:74-77 *)
Record proof_node := { p_num : Z; p_value : list Z }.

(** common/mbt/proof.go:25-40 node.proof; nil children at branch level panic *)
Fixpoint node_proof (n : node) (num : Z) : result (list proof_node * list proof_node) :=
  match n with
  | Leaf _ lv _ => if lv <? 2 then Ok ([], []) else Panic
  | Branch l r _ lv _ =>
      if lv <? 2 then Ok ([], [])
      else
        let maxNumChild := shl1 (lv - 2) in
        if maxNumChild <? num then
          rbind (node_proof r (num - maxNumChild)) (fun lr =>
          Ok (fst lr ++ [{| p_num := n_num l; p_value := n_h l |}], snd lr))
        else
          rbind (node_proof l num) (fun lr =>
          Ok (fst lr, snd lr ++ [{| p_num := n_num r; p_value := n_h r |}]))
  end.

(** common/mbt/proof.go:42-65 verify; true = no error *)
Fixpoint verify (n : node) : bool :=
  match n with
  | Leaf _ lv num => if lv =? 1 then num =? 1 else true
  | Branch l r _ lv num =>
      if lv =? 1 then num =? 1
      else
        negb (n_level l <? n_level r)
        && verify l
        && (if 2 <? lv then shl1 (n_level l - 1) =? n_num l else true)
        && verify r
  end.

(** common/mbt/proof.go:67-72 *)
Record mbt_proof := { p_left : list proof_node; p_contents : list (list Z); p_right : list proof_node }.

(** common/mbt/proof.go:79-87 ProofOfAll; nil for an empty tree is [Err 3] here *)
Definition mbt_ProofOfAll (m : mbt) : result mbt_proof :=
  if mbt_Len m <? 1 then Err 3
  else Ok {| p_left := []; p_contents := m_contents m; p_right := [] |}.

(** m.contents[begin-1 : end] *)
Definition go_slice {A} (l : list A) (lo hi : Z) : list A := firstn (Z.to_nat (hi - lo)) (skipn (Z.to_nat lo) l).

(** m.root.proof(num), root not nil when Len() > 0 *)
Definition root_proof (m : mbt) (num : Z) : result (list proof_node * list proof_node) :=
  match m_root m with None => Panic | Some n => node_proof n num end.

(** common/mbt/proof.go:94-135 Proof; the inner ProofOfAll (103-105) is unreachable.  Lines 126-132 reverse [l]. *)
Definition mbt_Proof (m : mbt) (b e : Z) : result mbt_proof :=
  if (b <? 1) || (e <? 1) || (mbt_Len m <? e) then Err 2
  else if e <? b then Err 4
  else if (b =? 1) && (e =? mbt_Len m) then mbt_ProofOfAll m
  else
    rbind (if b =? 1 then rbind (root_proof m e) (fun lr => Ok ([], snd lr))
           else rbind (root_proof m b) (fun lr =>
                if b =? e then Ok lr
                else if e =? mbt_Len m then Ok (fst lr, [])
                else rbind (root_proof m e) (fun lr' => Ok (fst lr, snd lr')))) (fun lr =>
    Ok {| p_left := rev (fst lr); p_contents := go_slice (m_contents m) (b - 1) e; p_right := snd lr |}).

(** common/mbt/proof.go:137-162 Root: hash, left, total and whether err is nil.  (left, total and the hash
    are returned together with an error as well.) *)
Definition proof_Root (H : list Z -> list Z) (p : mbt_proof) : result (list Z * Z * Z * bool) :=
  let r0 := fold_left (fun n x => lazyAdd n (p_num x) (p_value x)) (p_left p) new_node in
  let left := fold_left (fun a x => i64 (a + p_num x)) (p_left p) 0 in
  let r1 := fold_left (fun n c => lazyAdd n 1 (H c)) (p_contents p) r0 in
  let total1 := i64 (zlen (p_contents p)) in
  let r2 := fold_left (fun n x => lazyAdd n (p_num x) (p_value x)) (p_right p) r1 in
  let total2 := fold_left (fun a x => i64 (a + p_num x)) (p_right p) total1 in
  rbind (ensureHash H false r2) (fun r =>
  let total := i64 (left + total2) in
  Ok (n_h r, left, total, (n_num r =? total) && verify r)).

(** common/mbt/path.go:30-33 *)
Record path_node := { pn_right : bool; pn_value : list Z }.

(** common/mbt/path.go:8-22 node.path *)
Fixpoint node_path (n : node) (num : Z) : result (list path_node) :=
  match n with
  | Leaf _ lv _ => if lv <? 2 then Ok [] else Panic
  | Branch l r _ lv _ =>
      if lv <? 2 then Ok []
      else
        let maxNumChild := shl1 (lv - 2) in
        if maxNumChild <? num then
          rbind (node_path r (num - maxNumChild)) (fun p => Ok (p ++ [{| pn_right := false; pn_value := n_h l |}]))
        else
          rbind (node_path l num) (fun p => Ok (p ++ [{| pn_right := true; pn_value := n_h r |}]))
  end.

(** common/mbt/path.go:24-28, 35-43 Path: content and path nodes *)
Definition mbt_Path (m : mbt) (num : Z) : result (list Z * list path_node) :=
  if (num <? 1) || (mbt_Len m <? num) then Err 2
  else match nth_error (m_contents m) (Z.to_nat (num - 1)), m_root m with
       | Some c, Some n => rbind (node_path n num) (fun p => Ok (c, p))
       | _, _ => Panic
       end.

(** common/mbt/path.go:76-86 RootByMerkleNode; DirRight is [pn_right = true] *)
Definition RootByMerkleNode (H : list Z -> list Z) (leaf : list Z) (l : list path_node) : list Z :=
  fold_left (fun h n => if pn_right n then H (h ++ pn_value n) else H (pn_value n ++ h)) l leaf.

(** common/mbt/path.go:45-55 MerkleBinaryTreePath.Root *)
Definition path_Root (H : list Z -> list Z) (content : list Z) (l : list path_node) : list Z :=
  RootByMerkleNode H (H content) l.
