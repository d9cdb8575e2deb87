(** Model of the contracts' enumerable dictionary: javascore/bmc/src/main/java/foundation/icon/score/data/EnumerableDictDB.java.
    DictDB is a total function to options, ArrayDB a list.  Keys are compared as Java equals does ([keqb]). *)
From Coq Require Import String Ascii ZArith List Bool.
From Verif Require Import Base.
Import ListNotations.
Open Scope nat_scope.

Section DICT.
Variables K V : Type.
Variable keqb : K -> K -> bool.

(** EnumerableDictDB.java 28-46: key => array index, array index => key, array of values *)
Record dict := { d_indexes : K -> option nat; d_keys : nat -> option K; d_values : list V }.
Definition d_empty : dict := {| d_indexes := fun _ => None; d_keys := fun _ => None; d_values := [] |}.

(** DictDB.set *)
Definition dset_index (f : K -> option nat) (k : K) (v : option nat) : K -> option nat := fun k' => if keqb k k' then v else f k'.
Definition dset_key (f : nat -> option K) (i : nat) (v : option K) : nat -> option K := fun i' => if Nat.eqb i i' then v else f i'.
(** ArrayDB.set; the index is in range at every call *)
Fixpoint dset_value (l : list V) (i : nat) (v : V) : list V :=
  match l, i with
  | [], _ => []
  | _ :: l', O => v :: l'
  | x :: l', S i' => x :: dset_value l' i' v
  end.

(** 52-54 *)
Definition d_size (d : dict) : nat := length (d_values d).
(** 77-80; ArrayDB.get out of range throws, here None: no reachable index is out of range (C52) *)
Definition getValue (d : dict) (i : option nat) : option V := match i with Some n => nth_error (d_values d) n | None => None end.
(** 68-70 *)
Definition getKey (d : dict) (i : nat) : option K := d_keys d i.
(** 104-106 *)
Definition d_containsKey (d : dict) (k : K) : bool := match d_indexes d k with Some _ => true | None => false end.
(** 118-122 *)
Definition d_get (d : dict) (k : K) : option V := getValue d (d_indexes d k).
(** 82-90, 124-133: put *)
Definition d_put (d : dict) (k : K) (v : V) : dict :=
  match d_indexes d k with
  | Some i =>
      match nth_error (d_values d) i with
      | Some _ => {| d_indexes := d_indexes d; d_keys := d_keys d; d_values := dset_value (d_values d) i v |}
      | None => let vs := d_values d ++ [v] in
                {| d_indexes := dset_index (d_indexes d) k (Some (length vs - 1)); d_keys := dset_key (d_keys d) (length vs - 1) (Some k); d_values := vs |}
      end
  | None => let vs := d_values d ++ [v] in
            {| d_indexes := dset_index (d_indexes d) k (Some (length vs - 1)); d_keys := dset_key (d_keys d) (length vs - 1) (Some k); d_values := vs |}
  end.
(** 92-102, 135-152: remove *)
Definition d_remove (d : dict) (k : K) : dict :=
  match d_indexes d k with
  | None => d
  | Some i =>
      match nth_error (d_values d) i with
      | None => d
      | Some _ =>
          let popped := removelast (d_values d) in
          let vs := match nth_error (d_values d) (length (d_values d) - 1) with
                    | Some lastv => if Nat.eqb i (length popped) then popped else dset_value popped i lastv
                    | None => popped
                    end in
          let idx := dset_index (d_indexes d) k None in
          let lastIdx := length vs in
          if Nat.eqb i lastIdx then {| d_indexes := idx; d_keys := dset_key (d_keys d) i None; d_values := vs |}
          else match d_keys d lastIdx with
               | Some lastKey => {| d_indexes := dset_index idx lastKey (Some i); d_keys := dset_key (d_keys d) i (Some lastKey); d_values := vs |}
               | None => {| d_indexes := idx; d_keys := dset_key (d_keys d) i None; d_values := vs |}
               end
      end
  end.
(** 108-116 *)
Definition d_containsValue (veqb : V -> V -> bool) (d : dict) (v : V) : bool := existsb (fun x => veqb x v) (d_values d).
(** 164-171 *)
Definition d_keySet (d : dict) : list (option K) := map (getKey d) (seq 0 (d_size d)).
(** 182-189 *)
Definition d_toList (d : dict) : list V := d_values d.
(** 154-162: clear *)
Fixpoint d_clear_from (n : nat) (i : nat) (d : dict) : dict :=
  match n with
  | O => d
  | S n' =>
      let idx := match d_keys d i with Some k => dset_index (d_indexes d) k None | None => d_indexes d end in
      d_clear_from n' (S i) {| d_indexes := idx; d_keys := dset_key (d_keys d) i None; d_values := removelast (d_values d) |}
  end.
Definition d_clear (d : dict) : dict := d_clear_from (d_size d) 0 d.
End DICT.
Arguments d_empty {K V}.
Arguments d_indexes {K V}.
Arguments d_keys {K V}.
Arguments d_values {K V}.
Arguments d_size {K V}.
Arguments getValue {K V}.
Arguments getKey {K V}.
Arguments d_containsKey {K V}.
Arguments d_get {K V}.
Arguments d_put {K V}.
Arguments d_remove {K V}.
Arguments d_containsValue {K V}.
Arguments d_keySet {K V}.
Arguments d_toList {K V}.
Arguments d_clear {K V}.
Arguments d_clear_from {K V}.
Arguments dset_index {K}.
Arguments dset_key {K}.
Arguments dset_value {V}.
Arguments Build_dict {K V}.
