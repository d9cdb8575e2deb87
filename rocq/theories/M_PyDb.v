(** Model of pyscore/lib/icon/db.py, the stored dictionaries and properties of the contracts written in Python.
    - Strings are lists of characters as numbers; str(key) of the keys used is taken as the key.
    - Exceptions are [None]; a call that raises is undone by the platform.  with_flush is left out: no contract sets it.
    - A dict of Python is a function; the order of its keys is not used in what is modelled.
    - DictDB and VarDB of the platform are a function from keys to stored values and a string, "" at first. *)
From Coq Require Import ZArith List Bool.
From Verif Require Import Base.
Import ListNotations.
Open Scope Z_scope.

Definition key := list Z.
Definition comma : Z := 44.
Definition upd {X} (f : key -> X) (k : key) (x : X) : key -> X := fun k' => if bytes_eqb k' k then x else f k'.
(** ",".join(keys), line 91 *)
Fixpoint join_keys (l : list key) : list Z := match l with [] => [] | [k] => k | k :: r => k ++ comma :: join_keys r end.
(** s.split(","), line 98 *)
Fixpoint split_keys (s : list Z) : list key :=
  match s with
  | [] => [[]]
  | c :: r => if c =? comma then [] :: split_keys r else match split_keys r with w :: ws => (c :: w) :: ws | [] => [[c]] end
  end.
(** _index_key, lines 119-124 *)
Fixpoint index_key (l : list key) (k : key) : option nat :=
  match l with [] => None | x :: r => if bytes_eqb x k then Some O else match index_key r k with Some i => Some (S i) | None => None end end.
(** list.pop(index) *)
Definition pop {X} (i : nat) (l : list X) : list X := firstn i l ++ skipn (S i) l.

(** * IterableDictDB.  [A] are the objects, [V] what is stored for them. *)
Section DICT.
Context {A V : Type} (o2r : A -> V) (r2o : V -> option A) (nested : bool) (make : key -> V).
(** lines 27-31: the stored values and the string of keys *)
Record store := Store { s_raw : key -> option V; s_keys : list Z }.
(** lines 33-38: the object in memory *)
Record obj := Obj { o_cache : key -> option V; o_keys : list key; o_loaded : bool; o_add : key -> option A; o_remove : key -> bool; o_update : key -> option A }.
Definition new_obj : obj := Obj (fun _ => None) [] false (fun _ => None) (fun _ => false) (fun _ => None).
Definition st : Type := store * obj.
(** _load_keys, lines 94-100 *)
Definition load (x : st) : st :=
  let (s, o) := x in
  if o_loaded o then x
  else (s, Obj (o_cache o) (if 1 <? zlen (s_keys s) then split_keys (s_keys s) else o_keys o) true (o_add o) (o_remove o) (o_update o)).
Definition set_keys (x : st) (l : list key) : st :=
  let (s, o) := x in (Store (s_raw s) (join_keys l), Obj (o_cache o) l (o_loaded o) (o_add o) (o_remove o) (o_update o)).
(** _add_key, lines 102-109, with _flush_keys, lines 90-92 *)
Definition add_key (x : st) (k : key) : option st :=
  if existsb (Z.eqb comma) k then None else let y := load x in Some (set_keys y (o_keys (snd y) ++ [k])).
(** _remove_key, lines 111-117; the key is there where it is called *)
Definition remove_key (x : st) (k : key) : st :=
  let y := load x in
  let l := o_keys (snd y) in
  set_keys y (pop (match index_key l k with Some i => i | None => pred (length l) end) l).
(** keys, lines 126-128 *)
Definition d_keys (x : st) : list key * st := let y := load x in (o_keys (snd y), y).
(** _contains, lines 218-223 *)
Definition d_contains (x : st) (k : key) : bool * st :=
  let y := load x in (match index_key (o_keys (snd y)) k with Some _ => true | None => false end, y).
(** _cache, lines 137-151 *)
Definition d_cache (x : st) (k : key) : option V * st :=
  match o_cache (snd x) k with
  | Some v => (Some v, x)
  | None =>
      let (b, y) := d_contains x k in
      if b then
        let raw := if nested then Some (make k) else s_raw (fst y) k in
        let (s, o) := y in (raw, (s, Obj (upd (o_cache o) k raw) (o_keys o) (o_loaded o) (o_add o) (o_remove o) (o_update o)))
      else (None, y)
  end.
Definition put_add (x : st) (k : key) (a : option A) : st := let (s, o) := x in (s, Obj (o_cache o) (o_keys o) (o_loaded o) (upd (o_add o) k a) (o_remove o) (o_update o)).
Definition put_update (x : st) (k : key) (a : option A) : st := let (s, o) := x in (s, Obj (o_cache o) (o_keys o) (o_loaded o) (o_add o) (o_remove o) (upd (o_update o) k a)).
Definition put_remove (x : st) (k : key) (b : bool) : st := let (s, o) := x in (s, Obj (o_cache o) (o_keys o) (o_loaded o) (o_add o) (upd (o_remove o) k b) (o_update o)).
Definition put_raw (x : st) (k : key) (v : option V) : st := let (s, o) := x in (Store (upd (s_raw s) k v) (s_keys s), o).
Definition drop_cache (x : st) (k : key) : st := let (s, o) := x in (s, Obj (upd (o_cache o) k None) (o_keys o) (o_loaded o) (o_add o) (o_remove o) (o_update o)).
(** _set, lines 153-171 *)
Definition d_set (x : st) (k : key) (a : A) : option st :=
  let o := snd x in
  let y :=
    match o_add o k, o_update o k with
    | Some _, _ => Some (put_add x k (Some a))
    | _, Some _ => Some (put_update x k (Some a))
    | _, _ =>
        if o_remove o k then add_key (put_update (put_remove x k false) k (Some a)) k
        else let (raw, y) := d_cache x k in
             match raw with None => add_key (put_add y k (Some a)) k | Some _ => Some (put_update y k (Some a)) end
    end in
  match y with
  | Some y => Some (if nested then y else put_raw y k (Some (o2r a)))
  | None => None
  end.
(** _get, lines 173-188 *)
Definition d_get (x : st) (k : key) : option A * st :=
  let o := snd x in
  match o_add o k, o_update o k with
  | Some a, _ => (Some a, x)
  | _, Some a => (Some a, x)
  | _, _ => if o_remove o k then (None, x) else let (raw, y) := d_cache x k in (match raw with Some v => r2o v | None => None end, y)
  end.
(** remove, lines 190-212; for nested values the properties are removed as well, which is another part of the store *)
Definition d_remove (x : st) (k : key) : st :=
  let o := snd x in
  match o_add o k with
  | Some _ => put_add x k None
  | None =>
      if o_remove o k then x
      else
        let x := match o_update o k with Some _ => put_update x k None | None => x end in
        let (v, y) := d_cache x k in
        match v with
        | None => y
        | Some _ => let z := drop_cache (put_remove (remove_key y k) k true) k in if nested then z else put_raw z k None
        end
  end.
(** remove_all, lines 214-216: a loop over the list that is made shorter.  [i] is the place of the loop. *)
Fixpoint remove_from (n : nat) (x : st) (i : nat) : st :=
  match n with
  | O => x
  | S n' => match nth_error (o_keys (snd x)) i with Some k => remove_from n' (d_remove x k) (S i) | None => x end
  end.
Definition d_remove_all (x : st) : st := let (l, y) := d_keys x in remove_from (length l) y 0.
(** at, lines 130-135 *)
Definition d_at (x : st) (i : nat) : option (option A * st) :=
  let (l, y) := d_keys x in match nth_error l i with Some k => Some (d_get y k) | None => None end.
(** The next call of the contract starts with a new object. *)
Definition next_call (x : st) : st := (fst x, new_obj).
End DICT.
Arguments store : clear implicits.
Arguments obj : clear implicits.
Arguments st : clear implicits.

(** * PropertiesDB *)
Inductive prop := VInt (n : Z) | VStr (s : list Z) | VBool (b : bool) | VBytes (b : list Z) | VAddress (b : list Z) | VBtp (s : list Z) | VObj (b : list Z).
Section PROPS.
(** UTF-8 of strings is kept as it is; Address.from_bytes and the readers of serialized objects say which bytes they take.  An int
    is written as in rlp.py: with a bit for the sign. *)
Context (int_bytes : Z -> list Z) (bytes_int : list Z -> Z) (address : list Z -> bool) (reads : key -> list Z -> bool).
Variable default : key -> option prop.
Record props := Props { p_db : key -> option (list Z); p_cache : key -> option (option prop); p_remove : key -> bool }.
(** set, lines 488-506: the first of the tests that holds; a bool is an int in Python *)
Definition to_stored (v : prop) : list Z :=
  match v with
  | VInt n => 1 :: int_bytes n
  | VBool b => 1 :: int_bytes (if b then 1 else 0)
  | VStr s => 2 :: s
  | VBytes b => 4 :: b
  | VAddress b => 5 :: b
  | VBtp s => 6 :: s
  | VObj b => 7 :: b
  end.
(** get, lines 430-453 *)
Definition of_stored (k : key) (b : list Z) : option prop :=
  match b with
  | [] => None
  | t :: r =>
      if t =? 1 then Some (VInt (bytes_int r))
      else if t =? 2 then Some (VStr r)
      else if t =? 3 then Some (VBool (bytes_eqb r [1]))
      else if t =? 4 then Some (VBytes r)
      else if t =? 5 then if address r then Some (VAddress r) else None
      else if t =? 6 then Some (VBtp r)
      else if t =? 7 then if reads k r then Some (VObj r) else None
      else None
  end.
(** get, lines 416-455: the value, None for no value *)
Definition p_get (p : props) (k : key) : option (option prop * props) :=
  if p_remove p k then Some (None, p)
  else
    match p_cache p k with
    | Some v => Some (v, p)
    | None =>
        match (match p_db p k with None => Some (default k) | Some b => match of_stored k b with Some v => Some (Some v) | None => None end end) with
        | Some v => Some (v, Props (p_db p) (upd (p_cache p) k (Some v)) (p_remove p))
        | None => None
        end
    end.
(** set, lines 474-509 *)
Definition p_set (p : props) (k : key) (v : option prop) : option props :=
  match v with
  | None =>
      match p_get p k with
      | Some (None, q) => Some q
      | Some (Some _, q) => Some (Props (upd (p_db q) k None) (upd (p_cache q) k (Some None)) (upd (p_remove q) k true))
      | None => None
      end
  | Some a => Some (Props (upd (p_db p) k (Some (to_stored a))) (upd (p_cache p) k (Some (Some a))) (upd (p_remove p) k false))
  end.
(** remove_all, lines 382-401: all properties with a default are read, those in the cache removed *)
Fixpoint read_all (p : props) (ks : list key) : option props :=
  match ks with [] => Some p | k :: r => match p_get p k with Some (_, q) => read_all q r | None => None end end.
Definition p_remove_all (p : props) (ks : list key) : option props :=
  match read_all p ks with
  | Some q => let c := fun k => match p_cache q k with Some _ => true | None => false end in
      Some (Props (fun k => if c k then None else p_db q k) (fun _ => None) (fun k => c k || p_remove q k))
  | None => None
  end.
Definition p_next_call (p : props) : props := Props (p_db p) (fun _ => None) (fun _ => false).
End PROPS.
