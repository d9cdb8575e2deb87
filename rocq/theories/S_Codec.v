(** Independent specification for the typed codec: which Go values have which type. *)
From Coq Require Import ZArith List Sorted.
From Verif Require Import Base M_Codec.
Import ListNotations.
Open Scope Z_scope.

Definition int_width (bits : Z) : Prop := bits = 8 \/ bits = 16 \/ bits = 32 \/ bits = 64.
Definition uint_value (bits z : Z) : Prop := 0 <= z < 2 ^ bits.
Definition int_value (bits z : Z) : Prop := - 2 ^ (bits - 1) <= z < 2 ^ (bits - 1).

Definition key_has_kind (k : keykind) (x : gkey) : Prop :=
  match k, x with
  | KString, KeyS s => bytes_ok s
  | KInt bits, KeyI z => int_width bits /\ int_value bits z
  | KUint bits, KeyU z => int_width bits /\ uint_value bits z
  | _, _ => False
  end.

(** Order of keys: bytewise for strings, numeric for integers. *)
Definition key_lt (a b : gkey) : Prop := key_ltb a b = true.

(** Values of a type.  A map is represented canonically, by its entries in increasing key order. *)
Fixpoint has_type (t : ty) (v : val) : Prop :=
  match t, v with
  | TBool, VBool _ => True
  | TUint bits, VUint z => int_width bits /\ uint_value bits z
  | TInt bits, VInt z => int_width bits /\ int_value bits z
  | TString, VString s => bytes_ok s
  | TBytes, VBytes None => True
  | TBytes, VBytes (Some b) => bytes_ok b
  | TByteArray n, VByteArr b => length b = n /\ bytes_ok b
  | TPtr _, VPtr None => True
  | TPtr t', VPtr (Some v') => has_type t' v'
  | TSlice _, VSlice None => True
  | TSlice t', VSlice (Some l) => Forall (has_type t') l
  | TArray n t', VArray l => length l = n /\ Forall (has_type t') l
  | TStruct fs, VStruct vs =>
      (fix all (fs : list ty) (vs : list val) : Prop :=
         match fs, vs with
         | [], [] => True
         | f :: fs', x :: vs' => has_type f x /\ all fs' vs'
         | _, _ => False
         end) fs vs
  | TMap _ _, VMap None => True
  | TMap k t', VMap (Some m) =>
      StronglySorted (fun a b => key_lt (fst a) (fst b)) m /\
      Forall (fun kv => key_has_kind k (fst kv) /\ has_type t' (snd kv)) m
  | _, _ => False
  end.

(** Types whose values can be nil. *)
Definition can_be_nil (t : ty) : Prop :=
  match t with TPtr _ | TBytes | TSlice _ | TMap _ _ => True | _ => False end.

(** No pointer to a type that itself can be nil (e.g. no **T and no *[]T). *)
Fixpoint simple_pointers (t : ty) : Prop :=
  match t with
  | TPtr t' => ~ can_be_nil t' /\ simple_pointers t'
  | TSlice t' | TArray _ t' | TMap _ t' => simple_pointers t'
  | TStruct fs => fold_right (fun f p => simple_pointers f /\ p) True fs
  | _ => True
  end.
