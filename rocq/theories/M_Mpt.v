(** Model of common/mpt/mpt.go.  crypto.SHA3Sum256 is the parameter [H].  A nil byte slice and an empty one
    are not distinguished inside a node (the code only looks at lengths and contents). *)
From Coq Require Import String Ascii ZArith List Bool.
From Verif Require Import Base M_IntConv M_Rlp M_Codec.
Import ListNotations.
Open Scope Z_scope.

(** mpt.go 13-31.  MptLink.ptr is kept apart, in [follow] below. *)
Record mpt_node := { n_header : option (Z * list Z); n_links : list (list Z); n_data : list Z }.
(** mpt.go 23-25: Prefix & 0x20 != 0 *)
Definition IsLeaf (prefix : Z) : bool := negb (Z.land prefix 32 =? 0).

Definition bytes_of (v : val) : list Z := match v with VBytes (Some b) => b | _ => [] end.

(** mpt.go 35-59 RLPDecodeSelf, on the already decoded [][]byte *)
Definition node_of_items (bl : list (list Z)) : result mpt_node :=
  if (length bl =? 2)%nat then
    match bl with
    | [h; d] => match h with
                | [] => Panic  (* bl[0][0] *)
                | p :: nib => if IsLeaf p then Ok {| n_header := Some (p, nib); n_links := []; n_data := d |}
                              else Ok {| n_header := Some (p, nib); n_links := [d]; n_data := [] |}
                end
    | _ => Panic
    end
  else if (length bl =? 17)%nat then Ok {| n_header := None; n_links := firstn 16 bl; n_data := nth 16 bl [] |}
  else Err 1.

(** codec.RLP.UnmarshalFromBytes(b, &node); bytes after the first item are ignored *)
Definition decode_node (b : list Z) : result mpt_node :=
  rbind (UnmarshalFromBytes (TSlice TBytes) b) (fun vr =>
  match fst vr with
  | VSlice (Some l) => node_of_items (map bytes_of l)
  | _ => node_of_items []
  end).

(** mpt.go 75-81: the first loop *)
Fixpoint decode_nodes (bl : list (list Z)) : result (list mpt_node) :=
  match bl with
  | [] => Ok []
  | b :: bl' => rbind (decode_node b) (fun n => rbind (decode_nodes bl') (fun ns => Ok (n :: ns)))
  end.

(** mpt.go 95-100: index of the first non-empty link equal to the hash of the next node *)
Fixpoint find_link (links : list (list Z)) (h : list Z) (i : nat) : option nat :=
  match links with
  | [] => None
  | x :: r => if negb (length x =? 0)%nat && bytes_eqb x h then Some i else find_link r h (S i)
  end.

(** mpt.go 83-103: the second loop.  The result says for every node which of its links got its ptr set to the
    next node (None for a leaf).  mp.Hashes[i+1] is out of range for the last node. *)
Fixpoint link_nodes (ns : list mpt_node) (hs : list (list Z)) : result (list (option nat)) :=
  match ns, hs with
  | [], _ => Ok []
  | n :: ns', _ :: hs' =>
      match n_header n with
      | Some (p, _) =>
          if IsLeaf p then rbind (link_nodes ns' hs') (fun r => Ok (None :: r))
          else match hs' with
               | [] => Panic
               | h :: _ => match n_links n with
                           | [] => Panic
                           | l :: _ => if bytes_eqb l h then rbind (link_nodes ns' hs') (fun r => Ok (Some 0%nat :: r)) else Err 2
                           end
               end
      | None =>
          match hs' with
          | [] => Panic
          | h :: _ => match find_link (n_links n) h 0 with
                      | Some i => rbind (link_nodes ns' hs') (fun r => Ok (Some i :: r))
                      | None => Err 3
                      end
          end
      end
  | _ :: _, [] => Panic
  end.

Record mpt_proof := { mp_nodes : list mpt_node; mp_hashes : list (list Z); mp_follow : list (option nat) }.

(** mpt.go 70-104 *)
Definition NewMptProof (H : list Z -> list Z) (bl : list (list Z)) : result mpt_proof :=
  rbind (decode_nodes bl) (fun ns =>
  rbind (link_nodes ns (map H bl)) (fun f =>
  Ok {| mp_nodes := ns; mp_hashes := map H bl; mp_follow := f |})).

(** mpt.go 66-68 *)
Definition mp_Leaf (mp : mpt_proof) : result mpt_node :=
  match mp_nodes mp with
  | [] => Panic
  | _ => match nth_error (mp_nodes mp) (length (mp_nodes mp) - 1) with Some n => Ok n | None => Panic end
  end.
