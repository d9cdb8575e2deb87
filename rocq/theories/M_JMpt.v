(** Model of the Patricia tree of the ICON block verifier contract, javascore/bmv/icon, MerklePatriciaTree.java.
    Context.hash("sha3-256") is the parameter [H]; the "RLPn" reader is that of M_Wire, whose failures are taken to be
    IllegalStateException.  Err 1 is MPTException, Panic any other exception. *)
From Coq Require Import String Ascii ZArith List Bool.
From Verif Require Import Base M_IntConv M_Rlp M_Wire.
Import ListNotations.
Open Scope Z_scope.

(** MerklePatriciaTree.java 38-42 for a long: RLPn writes its two's complement *)
Definition encodeKey (key : Z) : list Z := writeBytes (Some (BigIntToBytes key)).
(** MerklePatriciaTree.java 50-67 without the prefix *)
Definition bytesToNibbles (b : list Z) : list Z := flat_map (fun x => [Z.land (Z.shiftr x 4) 15; Z.land x 15]) b.
(** score-util ArrayUtil.java matchCount *)
Fixpoint matchCount (src dst : list Z) : nat :=
  match src, dst with
  | x :: s, y :: d => if x =? y then S (matchCount s d) else O
  | _, _ => O
  end.

(** MerklePatriciaTree.java 68-79: a node made from a hash, and the three kinds readObject makes, with hash and serialized
    null.  An extension's only child is made from a hash. *)
Inductive jnode : Type :=
| NHash (h : list Z)
| NExt (nib : list Z) (child : list Z)
| NLeaf (nib data : list Z)
| NBranch (children : list (option jnode)) (data : list Z).
(** the elements of arr *)
Inductive jitem : Type := IBytes (b : list Z) | INode (n : jnode).

(** MerklePatriciaTree.java 117-126 *)
Definition child_of (x : jitem) : option jnode :=
  match x with INode n => Some n | IBytes [] => None | IBytes b => Some (NHash b) end.
(** MerklePatriciaTree.java 99-133 *)
Definition node_of (arr : list jitem) : result jnode :=
  if (length arr =? 2)%nat then
    match arr with
    | [IBytes header; IBytes b] =>
        match header with
        | [] => Panic
        | x :: rest =>
            let nib := (if negb (Z.land x 16 =? 0) then [Z.land x 15] else []) ++ bytesToNibbles rest in
            Ok (if negb (Z.land x 32 =? 0) then NLeaf nib b else NExt nib b)
        end
    | _ => Err 1
    end
  else if (length arr =? 17)%nat then
    match nth_error arr 16 with
    | Some (IBytes d) => Ok (NBranch (map child_of (firstn 16 arr)) d)
    | _ => Panic
    end
  else Err 1.

(** beginList *)
Definition beginList (s : list Z) : option (list Z * list Z) :=
  match readList s with ROk body r => Some (body, r) | RNil r => Some ([], r) | _ => None end.
(** MerklePatriciaTree.java 82-98: the list and the loop over its elements; a store behind the end of arr is out of bounds *)
Fixpoint readNode (fuel : nat) (s : list Z) {struct fuel} : result (jnode * list Z) :=
  match fuel with
  | O => Panic
  | S f =>
      match beginList s with
      | None => Panic
      | Some (body, r) => rbind (readItems f 0 body) (fun arr => rbind (node_of arr) (fun n => Ok (n, r)))
      end
  end
with readItems (fuel : nat) (i : nat) (s : list Z) {struct fuel} : result (list jitem) :=
  match s with
  | [] => Ok []
  | _ =>
      match fuel with
      | O => Panic
      | S f =>
          match readByteArray s with
          | Some (b, r) => if (i <? 17)%nat then rbind (readItems f (S i) r) (fun l => Ok (IBytes b :: l)) else Panic
          | None => if (i <? 16)%nat then rbind (readNode f s) (fun x => rbind (readItems f (S i) (snd x)) (fun l => Ok (INode (fst x) :: l)))
                    else Err 1
          end
      end
  end.
(** MerklePatriciaTree.java 137-140 *)
Definition node_fromBytes (b : list Z) : result jnode := rbind (readNode (2 * length b) b) (fun x => Ok (fst x)).

Section PROVE.
Variable H : list Z -> list Z.
(** MerklePatriciaTree.java 153-176: the cases behind isHash, for a node that was read; [go] is prove of a child *)
Definition at_node (go : jnode -> list Z -> result (list Z)) (n : jnode) (nib : list Z) : result (list Z) :=
  match n with
  | NHash _ => Panic
  | NExt nn child => let cnt := matchCount nn nib in if (cnt <? length nn)%nat then Err 1 else go (NHash child) (skipn cnt nib)
  | NBranch cs d =>
      match nib with
      | [] => Ok d
      | x :: r => match nth_error cs (Z.to_nat x) with Some (Some c) => go c r | _ => Panic end
      end
  | NLeaf nn d => if (matchCount nn nib <? length nib)%nat then Err 1 else Ok d
  end.
(** MerklePatriciaTree.java 142-176, 182-184.  The nodes prove is called for are made from hashes or were read inside their
    parent; the latter have no hash, so that isHash fails.  An empty hash leads to the last case, where nibbles is null. *)
Fixpoint prove_node (proofs : list (option (list Z))) (n : jnode) (nib : list Z) {struct proofs} : result (list Z) :=
  match n with
  | NHash [] => Panic
  | NHash h =>
      match proofs with
      | Some p :: ps => if bytes_eqb h (H p) then rbind (node_fromBytes p) (fun m => at_node (prove_node ps) m nib) else Err 1
      | _ => Panic
      end
  | _ => Panic
  end.
(** MerklePatriciaTree.java 44-48 *)
Definition mpt_prove (rootHash key : list Z) (proofs : list (option (list Z))) : result (list Z) :=
  prove_node proofs (NHash rootHash) (bytesToNibbles key).
End PROVE.
