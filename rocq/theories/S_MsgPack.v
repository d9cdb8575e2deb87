(** Independent specification for codec.MP: the MessagePack format (every form of an item the format allows), and which
    item a Go value stands for. *)
From Coq Require Import ZArith List.
From Verif Require Import Base M_Codec S_Codec.
Import ListNotations.
Open Scope Z_scope.

Inductive item :=
| INil | IBool (b : bool) | INum (z : Z) | IFloat (d : list Z) | IStr (s : list Z) | IBin (b : list Z) | IExt (kind : Z) (b : list Z)
| IList (l : list item) | IPairs (l : list (item * item)).

(** 2^j bytes, big-endian *)
Definition digits (j z : Z) (d : list Z) : Prop := zlen d = 2 ^ j /\ bytes_ok d /\ be_val d = z.
Definition number_form (z : Z) (b : list Z) : Prop :=
  (0 <= z <= 127 /\ b = [z]) \/ (-32 <= z < 0 /\ b = [256 + z]) \/
  exists j d, 0 <= j <= 3 /\
    ((b = (204 + j) :: d /\ digits j z d) \/
     (b = (208 + j) :: d /\ digits j (z mod 2 ^ (8 * 2 ^ j)) d /\ - 2 ^ (8 * 2 ^ j - 1) <= z < 2 ^ (8 * 2 ^ j - 1))).
Definition sized (code lo n : Z) (h : list Z) : Prop := exists j d, lo <= j <= 2 /\ digits j n d /\ h = (code + j) :: d.
Definition str_header (n : Z) (h : list Z) : Prop := (n < 32 /\ h = [160 + n]) \/ sized 217 0 n h.
Definition bin_header (n : Z) (h : list Z) : Prop := sized 196 0 n h.
Definition list_header (n : Z) (h : list Z) : Prop := (n < 16 /\ h = [144 + n]) \/ sized 219 1 n h.
Definition map_header (n : Z) (h : list Z) : Prop := (n < 16 /\ h = [128 + n]) \/ sized 221 1 n h.
Definition ext_form (kind n : Z) (h : list Z) : Prop := (exists j, 0 <= j <= 4 /\ n = 2 ^ j /\ h = [212 + j; kind]) \/ exists h', sized 199 0 n h' /\ h = h' ++ [kind].

(** the forms of an item; the members of a map follow each other, key before value *)
Inductive mp_form : item -> list Z -> Prop :=
| FNil : mp_form INil [192]
| FFalse : mp_form (IBool false) [194]
| FTrue : mp_form (IBool true) [195]
| FNum : forall z b, number_form z b -> mp_form (INum z) b
| FFloat : forall d, zlen d = 4 -> mp_form (IFloat d) (202 :: d)
| FDouble : forall d, zlen d = 8 -> mp_form (IFloat d) (203 :: d)
| FStr : forall s h, str_header (zlen s) h -> mp_form (IStr s) (h ++ s)
| FBin : forall b h, bin_header (zlen b) h -> mp_form (IBin b) (h ++ b)
| FExt : forall kind b h, ext_form kind (zlen b) h -> mp_form (IExt kind b) (h ++ b)
| FList : forall l h parts, list_header (zlen l) h -> Forall2 mp_form l parts -> mp_form (IList l) (h ++ concat parts)
| FPairs : forall l h parts, map_header (zlen l) h -> Forall2 mp_form (flat_map (fun kv => [fst kv; snd kv]) l) parts -> mp_form (IPairs l) (h ++ concat parts).

Definition key_item (k : gkey) : item := match k with KeyS s => IStr s | KeyI z | KeyU z => INum z end.
Fixpoint item_of (v : val) : item :=
  match v with
  | VBool b => IBool b
  | VUint z | VInt z => INum z
  | VString s => IStr s
  | VBytes (Some b) | VByteArr b => IBin b
  | VPtr (Some v') => item_of v'
  | VSlice (Some l) | VArray l | VStruct l => IList (map item_of l)
  | VMap (Some m) => IPairs (map (fun kv => (key_item (fst kv), item_of (snd kv))) m)
  | VBytes None | VPtr None | VSlice None | VMap None => INil
  end.

(** the integer types Go has *)
Fixpoint go_widths (t : ty) : Prop :=
  match t with
  | TUint bits | TInt bits => int_width bits
  | TPtr t' | TSlice t' | TArray _ t' => go_widths t'
  | TMap k t' => (match k with KInt bits | KUint bits => int_width bits | KString => True end) /\ go_widths t'
  | TStruct fs => fold_right (fun f p => go_widths f /\ p) True fs
  | _ => True
  end.
