(** Specification of an overlay database: a reference machine over plain functions. *)
From Coq Require Import ZArith List Bool Permutation.
From Verif Require Import Base M_Db.
Import ListNotations.
Open Scope Z_scope.

(** Contents: for every bucket and key, the value if there is one. *)
Definition contents : Type := list Z -> list Z -> option (list Z).
Definition same_key (a b : list Z * list Z) : bool := if list_eq_dec Z.eq_dec (fst a) (fst b) then if list_eq_dec Z.eq_dec (snd a) (snd b) then true else false else false.
Definition update (c : contents) (id k : list Z) (v : option (list Z)) : contents :=
  fun id' k' => if same_key (id, k) (id', k') then v else c id' k'.

Inductive op := OGet (id k : list Z) | OHas (id k : list Z) | OSet (id k v : list Z) | ODelete (id k : list Z) | OFlush (write : bool).
Inductive out := Value (v : option (list Z)) | Present (b : bool) | Done | Failed.

(** What is in the base, what a reader of the overlay sees, and whether the overlay has been closed. *)
Record ref := { r_base : contents; r_view : contents; r_closed : bool }.
Definition start (c : contents) : ref := {| r_base := c; r_view := c; r_closed := false |}.
Definition write (r : ref) (id k : list Z) (v : option (list Z)) : ref :=
  {| r_base := if r_closed r then update (r_base r) id k v else r_base r;
     r_view := update (r_view r) id k v; r_closed := r_closed r |}.
Definition rstep (r : ref) (o : op) : ref * out :=
  match o with
  | OGet id k => (r, Value (r_view r id k))
  | OHas id k => (r, Present (match r_view r id k with Some _ => true | None => false end))
  | OSet id k v => (write r id k (Some v), Done)
  | ODelete id k => (write r id k None, Done)
  | OFlush w => let c := if w then r_view r else r_base r in ({| r_base := c; r_view := c; r_closed := true |}, Done)
  end.
Fixpoint rrun (r : ref) (os : list op) : ref * list out :=
  match os with [] => (r, []) | o :: os' => let (r', x) := rstep r o in let (r'', xs) := rrun r' os' in (r'', x :: xs) end.

(** [order] is a possible order of Go's two nested map iterations over the buckets. *)
Definition entries (p : pending) : list (list Z * option (list Z)) := match p with Some d => d | None => [] end.
Definition iterates (order : list (list Z * list (list Z * option (list Z)))) (bks : list (list Z * pending)) : Prop :=
  exists o, Permutation (map (fun x => (fst x, entries (snd x))) bks) o /\
            Forall2 (fun x y => fst x = fst y /\ Permutation (snd x) (snd y)) o order.

(** One operation of the layer database, with any iteration order for Flush. *)
Inductive lstep {S} (B : backend S) : layer S -> op -> out -> layer S -> Prop :=
| LGet : forall l id k l' v, l_Get B l id k = (l', v) -> lstep B l (OGet id k) (Value v) l'
| LHas : forall l id k l' b, l_Has B l id k = (l', b) -> lstep B l (OHas id k) (Present b) l'
| LSet : forall l id k v l', l_Set B l id k (Some v) = Ok l' -> lstep B l (OSet id k v) Done l'
| LSetFail : forall l id k v e, l_Set B l id k (Some v) = Err e -> lstep B l (OSet id k v) Failed l
| LDelete : forall l id k, lstep B l (ODelete id k) Done (l_Delete B l id k)
| LFlush : forall l w order l' ok, iterates order (l_buckets l) -> Flush B l w order = (l', ok) ->
    lstep B l (OFlush w) (if ok : bool then Done else Failed) l'.
Inductive lrun {S} (B : backend S) : layer S -> list op -> list out -> layer S -> Prop :=
| LNil : forall l, lrun B l [] [] l
| LCons : forall l o x l' os xs l'', lstep B l o x l' -> lrun B l' os xs l'' -> lrun B l (o :: os) (x :: xs) l''.

(** On the keys in [D] the backend behaves as a map from (bucket, key) to values and accepts every write. *)
Record lawful {S} (B : backend S) (D : list Z -> list Z -> Prop) : Prop := {
  law_has : forall s id k, b_has B s id k = match b_get B s id k with Some _ => true | None => false end;
  law_set_ok : forall s id k v, D id k -> exists s', b_set B s id k (Some v) = Ok s';
  law_set : forall s id k v s' id' k', D id k -> D id' k' -> b_set B s id k (Some v) = Ok s' ->
    b_get B s' id' k' = update (b_get B s) id k (Some v) id' k';
  law_del : forall s id k id' k', D id k -> D id' k' -> b_get B (b_del B s id k) id' k' = update (b_get B s) id k None id' k' }.

Definition op_in (D : list Z -> list Z -> Prop) (o : op) : Prop :=
  match o with OGet id k | OHas id k | OSet id k _ | ODelete id k => D id k | OFlush _ => True end.
