(** Model of pyscore/lib/icon/mpt.py, the Patricia tree of the contracts written in Python.
    - Exceptions are [None], whichever class they have.  sha3_256 is [H].
    - The proofs are a list of byte strings; a None among them raises in sha3_256 as a wrong proof does.
    - Nothing is read as str here, so that the UTF-8 test of M_PyRlp.v is not used. *)
From Coq Require Import ZArith List Bool.
From Verif Require Import Base M_PyRlp.
Import ListNotations.
Open Scope Z_scope.

(** mpt.py 103-110 bytes_to_nibbles, with the nibbles put before *)
Fixpoint bytes_to_nibbles (bs nibbles : list Z) : list Z :=
  match bs with [] => nibbles | b :: r => bytes_to_nibbles r (nibbles ++ [Z.land (Z.shiftr b 4) 15; Z.land b 15]) end.
(** mpt.py 112-120 match_nibbles *)
Fixpoint match_from (i : nat) (n : nat) (src dst : list Z) : nat :=
  match n with
  | O => i
  | S n' => if nth i src 0 =? nth i dst 0 then match_from (S i) n' src dst else i
  end.
Definition match_nibbles (src dst : list Z) : nat :=
  let len_src := if (length dst <? length src)%nat then length dst else length src in match_from 0 len_src src dst.

(** A node: known by its hash only (lines 34-35, the hash may be empty), an extension with the hash of its child, a leaf with its
    value (None for the nil marker), or a branch. *)
Inductive ynode := YHash (h : list Z) | YExt (nib h : list Z) | YLeaf (nib : list Z) (d : option (list Z)) | YBranch (cs : list (option ynode)) (d : list Z).

Definition raw (bs : list Z) : option (list pyval) := match rlp_decode (fun _ => true) bs TList with Some (PList l) => Some l | _ => None end.
Definition as_bytes (v : pyval) : option (list Z) := match v with PBytes b => Some b | _ => None end.
(** mpt.py 27-30: lengths of hashes *)
Definition hash_ok (h : list Z) : bool := negb ((0 <? zlen h) && (zlen h <? 32)).
Definition of_hash (h : list Z) : option ynode := if hash_ok h then Some (YHash h) else None.

Fixpoint all_some {A} (l : list (option A)) : option (list A) :=
  match l with [] => Some [] | Some a :: r => match all_some r with Some s => Some (a :: s) | None => None end | None :: _ => None end.
(** mpt.py 55-64: one child of a branch; [node] reads the node contained in it *)
Definition child (node : list Z -> option ynode) (u : pyval) : option (option ynode) :=
  match as_bytes u with
  | None | Some [] => None
  | Some (b :: r) =>
      if 192 <=? b then match node (b :: r) with Some n => Some (Some n) | None => None end
      else match rlp_decode (fun _ => true) (b :: r) TBytes with
           | Some (PBytes h) => if 0 <? zlen h then match of_hash h with Some n => Some (Some n) | None => None end else Some None
           | _ => None
           end
  end.
(** mpt.py 37-67: a node of its bytes.  A node is longer than the nodes contained in it, so that its length is enough fuel. *)
Fixpoint read_node (f : nat) (serialized : list Z) : option ynode :=
  match f with
  | O => None
  | S f' =>
      match raw serialized with
      | None => None
      | Some unpacked =>
          if (length unpacked =? 2)%nat then
            match unpacked with
            | [PBytes u0; PBytes u1] =>
                match rlp_decode (fun _ => true) u0 TBytes with
                | Some (PBytes (x :: rest)) =>
                    let prefix := Z.land x 240 in
                    let nibbles := bytes_to_nibbles rest (if negb (Z.land prefix 16 =? 0) then [Z.land x 15] else []) in
                    if negb (Z.land prefix 32 =? 0) then
                      match rlp_decode (fun _ => true) u1 TBytes with
                      | Some PNone => Some (YLeaf nibbles None)
                      | Some (PBytes d) => Some (YLeaf nibbles (Some d))
                      | _ => None
                      end
                    else
                      match rlp_decode (fun _ => true) u1 TBytes with
                      | Some (PBytes h) => match of_hash h with Some _ => Some (YExt nibbles h) | None => None end
                      | _ => None
                      end
                | _ => None
                end
            | _ => None
            end
          else if (length unpacked =? 17)%nat then
            match all_some (map (child (read_node f')) (firstn 16 unpacked)), nth_error unpacked 16 with
            | Some cs, Some (PBytes d) => Some (YBranch cs d)
            | _, _ => None
            end
          else None
      end
  end.
Definition node_of_bytes (serialized : list Z) : option ynode := read_node (S (length serialized)) serialized.

(** mpt.py 78-101 Node.prove.  A node without hash and bytes takes the last branch, where it has no value (line 101). *)
Section PROVE.
Context (H : list Z -> list Z).
Fixpoint node_prove (proofs : list (list Z)) : ynode -> list Z -> option (option (list Z)) :=
  let by_hash := fun (h nibbles : list Z) =>
    match h, proofs with
    | [], _ => None
    | _, [] => None
    | _, serialized :: r =>
        if negb (bytes_eqb h (H serialized)) then None
        else if negb (hash_ok (H serialized)) then None
        else match node_of_bytes serialized with Some n => node_prove r n nibbles | None => None end
    end in
  fix prove (n : ynode) (nibbles : list Z) {struct n} : option (option (list Z)) :=
    match n with
    | YHash h => by_hash h nibbles
    | YExt nib h => let cnt := match_nibbles nib nibbles in if (cnt <? length nib)%nat then None else by_hash h (skipn cnt nibbles)
    | YBranch cs d =>
        match nibbles with
        | [] => Some (Some d)
        | x :: r =>
            (fix pick (l : list (option ynode)) (k : nat) {struct l} : option (option (list Z)) :=
               match l, k with
               | [], _ => None
               | o :: _, O => match o with Some c => prove c r | None => None end
               | _ :: l', S k' => pick l' k'
               end) cs (Z.to_nat x)
        end
    | YLeaf nib d => if (match_nibbles nib nibbles <? length nibbles)%nat then None else Some d
    end.
(** mpt.py 122-126 MerklePatriciaTree.prove *)
Definition py_prove (root key : list Z) (proofs : list (list Z)) : option (option (list Z)) :=
  match of_hash root with Some n => node_prove proofs n (bytes_to_nibbles key []) | None => None end.
End PROVE.
