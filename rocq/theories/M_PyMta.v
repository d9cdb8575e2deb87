(** Model of pyscore/lib/icon/mta.py, the Merkle tree accumulator of the Python contracts.
    - sha3_256 is the parameter [H].  None in a list of hashes is None here.
    - Err 1 is MTAException, Err 2 InvalidWitnessNewerException, Err 3 InvalidWitnessOldException, Panic any other exception;
      where only success matters an exception is None.
    - int(idx/2) is division in floating point: indices stay below 2^53, where it is exact and rounds towards 0. *)
From Coq Require Import String Ascii ZArith List Bool.
From Verif Require Import Base M_PyRlp.
Import ListNotations.
Open Scope Z_scope.

Local Notation slot := (option (list Z)).
(** mta.py 34-59: the fields *)
Record pymta := PyMta { y_height : Z; y_roots : list slot; y_offset : Z; y_rsize : Z; y_csize : Z; y_cache : list slot; y_allow : bool }.
(** mta.py 34-59 without bytes, then the setters 69-73, 96-112 *)
Definition py_new : pymta := PyMta 0 [] 0 0 0 [] false.
Definition set_offset (m : pymta) (o : Z) : pymta :=
  PyMta (if (y_height m =? 0) && (0 <? o) then o else y_height m) (y_roots m) o (y_rsize m) (y_csize m) (y_cache m) (y_allow m).
Definition drop_front {A} (n : Z) (l : list A) : list A := skipn (length l - Z.to_nat n) l.
(** mta.py 96-102 *)
Definition set_roots_size (m : pymta) (s : Z) : pymta :=
  let s := if s <? 0 then 0 else s in
  PyMta (y_height m) (if 0 <? s then drop_front s (y_roots m) else y_roots m) (y_offset m) s (y_csize m) (y_cache m) (y_allow m).
(** mta.py 104-109 *)
Definition set_cache_size (m : pymta) (s : Z) : pymta :=
  let s := if s <? 0 then 0 else s in PyMta (y_height m) (y_roots m) (y_offset m) (y_rsize m) s (drop_front s (y_cache m)) (y_allow m).
(** mta.py 111-112 *)
Definition set_allow (m : pymta) (b : bool) : pymta := PyMta (y_height m) (y_roots m) (y_offset m) (y_rsize m) (y_csize m) (y_cache m) b.

(** mta.py 114-120 *)
Definition has_cache (m : pymta) (h : list Z) : bool :=
  negb (zlen h =? 0) && existsb (fun v => match v with Some x => bytes_eqb x h | None => false end) (y_cache m).
(** mta.py 122-126; popping from an empty list is an exception *)
Definition put_cache (m : pymta) (h : list Z) : option (list slot) :=
  if y_csize m <? 0 then None else Some (drop_front (y_csize m) (if 0 <? y_csize m then y_cache m ++ [Some h] else y_cache m)).

Section MTA.
Variable H : list Z -> list Z.
(** mta.py 135-154: the loop and what follows it; the roots and what the offset grows by *)
Fixpoint y_loop (rsize : Z) (i : nat) (rs : list slot) (h : list Z) : list slot * Z :=
  match rs with
  | [] => ([Some h], 0)
  | None :: r => (Some h :: r, 0)
  | Some x :: r =>
      if (0 <? rsize) && (rsize <=? Z.of_nat i + 1) then (Some h :: r, 2 ^ Z.of_nat i)
      else let y := y_loop rsize (S i) r (H (x ++ h)) in (None :: fst y, snd y)
  end.
(** mta.py 128-157 add *)
Definition y_add (m : pymta) (h : list Z) : option pymta :=
  match put_cache m h with
  | None => None
  | Some c =>
      let r := if (y_height m =? 0) || (zlen (y_roots m) =? 0) then (y_roots m ++ [Some h], 0) else y_loop (y_rsize m) 0 (y_roots m) h in
      if y_height m + 1 <? 0 then None
      else Some (PyMta (y_height m + 1) (fst r) (y_offset m + snd r) (y_rsize m) (y_csize m) c (y_allow m))
  end.
Fixpoint y_adds (m : pymta) (hs : list (list Z)) : option pymta :=
  match hs with [] => Some m | h :: r => match y_add m h with Some m' => y_adds m' r | None => None end end.

(** mta.py 163-174: the loop, [n] is i before it is decreased *)
Fixpoint y_root_idx (rs : list slot) (n : nat) (idx : Z) : result nat :=
  match n with
  | O => Ok 0%nat
  | S i =>
      if idx <? 0 then Err 1
      else match nth_error rs i with
           | Some (Some _) => if idx <? 2 ^ Z.of_nat i then Ok i else y_root_idx rs i (idx - 2 ^ Z.of_nat i)
           | _ => y_root_idx rs i idx
           end
  end.
(** mta.py 159-174 get_root_idx_by_height *)
Definition root_idx_by_height (m : pymta) (height : Z) : result nat := y_root_idx (y_roots m) (length (y_roots m)) (height - 1 - y_offset m).
(** mta.py 87-91 get_root; the index is not negative *)
Definition y_get_root (m : pymta) (i : nat) : result slot := match nth_error (y_roots m) i with Some r => Ok r | None => Err 1 end.
(** mta.py 178-183: the loop; joining with None is a TypeError *)
Fixpoint y_climb (ws : list slot) (h : list Z) (idx : Z) : option (list Z) :=
  match ws with
  | [] => Some h
  | None :: _ => None
  | Some w :: r => y_climb r (if idx mod 2 =? 0 then H (h ++ w) else H (w ++ h)) (Z.quot idx 2)
  end.
(** mta.py 176-186 _verify *)
Definition y_check (ws : list slot) (root : slot) (h : list Z) (idx : Z) : result unit :=
  match y_climb ws h idx with
  | None => Panic
  | Some x => match root with Some r => if bytes_eqb x r then Ok tt else Err 1 | None => Err 1 end
  end.
(** mta.py 188-210 verify *)
Definition y_verify (m : pymta) (ws : list slot) (h : list Z) (height at_ : Z) : result unit :=
  if y_height m =? at_ then rbind (y_get_root m (length ws)) (fun root => y_check ws root h (height - 1 - y_offset m))
  else if y_height m <? at_ then
    if negb (y_allow m) then Err 2
    else if y_height m <? height then Err 1
    else rbind (root_idx_by_height m height) (fun i => rbind (y_get_root m i) (fun root => y_check (firstn i ws) root h height))
  else if y_height m - height - 1 <? y_csize m then if has_cache m h then Ok tt else Err 1
  else Err 3.
End MTA.

(** mta.py 215-226 to_bytes *)
Definition py_hash (s : slot) : pyval := match s with Some b => PBytes b | None => PNone end.
Definition y_to_bytes (m : pymta) : list Z :=
  rlp_encode (PList [PInt (y_height m); PList (map py_hash (y_roots m)); PInt (y_offset m); PInt (y_rsize m); PInt (y_csize m); PList (map py_hash (y_cache m)); PBool (y_allow m)]).
(** mta.py 34-59 with bytes; a field that is the nil marker is refused here (it would be None and fail when used) *)
Definition noutf8 (_ : list Z) : bool := true.
Definition field_int (u : list pyval) (i : nat) : option Z :=
  match nth_error u i with
  | None => Some 0
  | Some (PBytes b) => match rlp_decode noutf8 b TInt with Some (PInt n) => Some n | _ => None end
  | Some _ => None
  end.
Fixpoint hashes (l : list pyval) : option (list slot) :=
  match l with
  | [] => Some []
  | PBytes b :: r => match hashes r with Some x => Some (Some b :: x) | None => None end
  | PNone :: r => match hashes r with Some x => Some (None :: x) | None => None end
  | _ :: _ => None
  end.
Definition field_hashes (u : list pyval) (i : nat) : option (list slot) :=
  match nth_error u i with
  | None => Some []
  | Some (PBytes b) => match rlp_decode noutf8 b (TOf (Some TBytes)) with Some (PList l) => hashes l | _ => None end
  | Some _ => None
  end.
Definition field_bool (u : list pyval) (i : nat) : option bool :=
  match nth_error u i with
  | None => Some false
  | Some (PBytes b) => match rlp_decode noutf8 b TBool with Some (PBool x) => Some x | _ => None end
  | Some _ => None
  end.
Definition y_of_bytes (bs : list Z) : option pymta :=
  match rlp_decode noutf8 bs TList with
  | Some (PList u) =>
      match field_int u 0, field_hashes u 1, field_int u 2, field_int u 3, field_int u 4, field_hashes u 5, field_bool u 6 with
      | Some h, Some rs, Some o, Some r, Some c, Some ca, Some a => Some (PyMta (if (h =? 0) && (0 <? o) then o else h) rs o r c ca a)
      | _, _, _, _, _, _, _ => None
      end
  | _ => None
  end.
