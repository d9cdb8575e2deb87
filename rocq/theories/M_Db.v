(** Model of common/db: the map and LevelDB backends and the layer (overlay) database.
    Not modelled: I/O errors of LevelDB, the Badger backend (it uses the same internalKey), logging, and the
    sharing of the byte slices that Get returns.  All operations hold the bucket lock, so they are atomic.
    A bucket handle is a (database, id) pair: layerDB never forgets a layerBucket, so an operation on a handle
    taken earlier is the same as GetBucket followed by the operation. *)
From Coq Require Import String Ascii ZArith List Bool.
From Verif Require Import Base.
Import ListNotations.
Open Scope Z_scope.

(** Finite maps keyed by byte strings: Go's map[string]T, as association lists. *)
Fixpoint kv_get {T} (k : list Z) (m : list (list Z * T)) : option T :=
  match m with [] => None | (k', v) :: m' => if bytes_eqb k k' then Some v else kv_get k m' end.
Fixpoint kv_del {T} (k : list Z) (m : list (list Z * T)) : list (list Z * T) :=
  match m with [] => [] | (k', v) :: m' => if bytes_eqb k k' then kv_del k m' else (k', v) :: kv_del k m' end.
Definition kv_set {T} (k : list Z) (v : T) (m : list (list Z * T)) : list (list Z * T) := (k, v) :: kv_del k m.

(** database.go 7-10 and bucket.go 4-9: what a database offers.  Reads give None for a missing key. *)
Record backend (S : Type) := {
  b_get : S -> list Z -> list Z -> option (list Z);
  b_has : S -> list Z -> list Z -> bool;
  b_set : S -> list Z -> list Z -> option (list Z) -> result S;
  b_del : S -> list Z -> list Z -> S }.
Arguments b_get {S}. Arguments b_has {S}. Arguments b_set {S}. Arguments b_del {S}.

Definition nonnil (v : option (list Z)) : list Z := match v with Some b => b | None => [] end.

(** map_db.go 44-57, 75-116.  A bucket that was never asked for is an empty bucket. *)
Definition mapdb : Type := list (list Z * list (list Z * list Z)).
Definition map_bucket (s : mapdb) (id : list Z) : list (list Z * list Z) := match kv_get id s with Some m => m | None => [] end.
Definition map_get (s : mapdb) (id k : list Z) : option (list Z) := kv_get k (map_bucket s id).
Definition map_has (s : mapdb) (id k : list Z) : bool := match kv_get k (map_bucket s id) with Some _ => true | None => false end.
Definition map_set (s : mapdb) (id k : list Z) (v : option (list Z)) : result mapdb :=
  if (length k =? 0)%nat then Err 1 else Ok (kv_set id (kv_set k (nonnil v) (map_bucket s id)) s).
Definition map_del (s : mapdb) (id k : list Z) : mapdb := kv_set id (kv_del k (map_bucket s id)) s.
Definition map_backend : backend mapdb := {| b_get := map_get; b_has := map_has; b_set := map_set; b_del := map_del |}.

(** bucket.go 38-43 *)
Definition internalKey (id key : list Z) : list Z := id ++ key.

(** go_level_db.go 63-86: one key space for all buckets *)
Definition leveldb : Type := list (list Z * list Z).
Definition level_get (s : leveldb) (id k : list Z) : option (list Z) := kv_get (internalKey id k) s.
Definition level_has (s : leveldb) (id k : list Z) : bool := match kv_get (internalKey id k) s with Some _ => true | None => false end.
Definition level_set (s : leveldb) (id k : list Z) (v : option (list Z)) : result leveldb := Ok (kv_set (internalKey id k) (nonnil v) s).
Definition level_del (s : leveldb) (id k : list Z) : leveldb := kv_del (internalKey id k) s.
Definition level_backend : backend leveldb := {| b_get := level_get; b_has := level_has; b_set := level_set; b_del := level_del |}.

Section LAYER.
Context {S : Type} (B : backend S).

(** layer_db.go 9-13: the pending writes of a bucket; None after a flush (data == nil).  A pending write of
    None is a deletion. *)
Definition pending : Type := option (list (list Z * option (list Z))).
(** layer_db.go 90-96 *)
Record layer := { l_flushed : bool; l_real : S; l_buckets : list (list Z * pending) }.

(** layer_db.go 138-143 *)
Definition NewLayerDB (s : S) : layer := {| l_flushed := false; l_real := s; l_buckets := [] |}.

(** layer_db.go 98-119: the bucket behind an id, and the database afterwards.  The result None stands for the
    real bucket (or a layer bucket with nil data, which behaves the same). *)
Definition GetBucket (l : layer) (id : list Z) : layer * pending :=
  match kv_get id (l_buckets l) with
  | Some p => (l, p)
  | None => if l_flushed l then (l, None)
            else ({| l_flushed := l_flushed l; l_real := l_real l; l_buckets := kv_set id (Some []) (l_buckets l) |}, Some [])
  end.
Definition put_bucket (l : layer) (id : list Z) (p : pending) : layer :=
  {| l_flushed := l_flushed l; l_real := l_real l; l_buckets := kv_set id p (l_buckets l) |}.
Definition put_real (l : layer) (s : S) : layer := {| l_flushed := l_flushed l; l_real := s; l_buckets := l_buckets l |}.

(** layer_db.go 15-25 *)
Definition l_Get (l0 : layer) (id k : list Z) : layer * option (list Z) :=
  let (l, p) := GetBucket l0 id in
  (l, match p with
      | Some d => match kv_get k d with Some v => v | None => b_get B (l_real l) id k end
      | None => b_get B (l_real l) id k
      end).
(** layer_db.go 27-37 *)
Definition l_Has (l0 : layer) (id k : list Z) : layer * bool :=
  let (l, p) := GetBucket l0 id in
  (l, match p with
      | Some d => match kv_get k d with Some v => (match v with Some _ => true | None => false end) | None => b_has B (l_real l) id k end
      | None => b_has B (l_real l) id k
      end).
(** layer_db.go 39-55 *)
Definition l_Set (l0 : layer) (id k : list Z) (v : option (list Z)) : result layer :=
  let (l, p) := GetBucket l0 id in
  match v, (match kv_get id (l_buckets l) with Some _ => true | None => false end) with
  | None, true => Err 2
  | _, _ => match p with
            | Some d => Ok (put_bucket l id (Some (kv_set k v d)))
            | None => rbind (b_set B (l_real l) id k v) (fun s => Ok (put_real l s))
            end
  end.
(** layer_db.go 57-67 *)
Definition l_Delete (l0 : layer) (id k : list Z) : layer :=
  let (l, p) := GetBucket l0 id in
  match p with
  | Some d => put_bucket l id (Some (kv_set k None d))
  | None => put_real l (b_del B (l_real l) id k)
  end.

(** layer_db.go 74-86: writing the pending entries in the order the map iteration gives them; the base
    database and whether an error stopped the loop *)
Fixpoint write_all (s : S) (id : list Z) (es : list (list Z * option (list Z))) : S * bool :=
  match es with
  | [] => (s, true)
  | (k, None) :: es' => write_all (b_del B s id k) id es'
  | (k, Some v) :: es' => match b_set B s id k (Some v) with Ok s' => write_all s' id es' | _ => (s, false) end
  end.

(** layer_db.go 121-132, with 69-88 inlined.  [order] is the order in which the two map iterations visit
    buckets and entries. *)
Fixpoint flush_buckets (write : bool) (order : list (list Z * list (list Z * option (list Z)))) (l : layer) : layer * bool :=
  match order with
  | [] => (l, true)
  | (id, es) :: order' =>
      let '(s, ok) := if write then write_all (l_real l) id es else (l_real l, true) in
      if ok then flush_buckets write order' (put_bucket (put_real l s) id None) else (put_real l s, false)
  end.
Definition Flush (l : layer) (write : bool) (order : list (list Z * list (list Z * option (list Z)))) : layer * bool :=
  let (l', ok) := flush_buckets write order l in
  if ok then ({| l_flushed := true; l_real := l_real l'; l_buckets := l_buckets l' |}, true) else (l', false).
End LAYER.
Arguments layer : clear implicits.
