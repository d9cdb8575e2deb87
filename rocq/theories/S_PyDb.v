(** What a stored dictionary should be: a list of entries in the order they were put in, with one entry per key. *)
From Coq Require Import ZArith List Bool.
From Verif Require Import Base M_PyDb.
Import ListNotations.
Open Scope Z_scope.

Section DICT.
Context {A : Type}.
Definition entries := list (key * A).
Fixpoint find (e : entries) (k : key) : option A := match e with [] => None | (x, a) :: r => if bytes_eqb x k then Some a else find r k end.
Definition replace (e : entries) (k : key) (a : A) : entries := map (fun p => if bytes_eqb (fst p) k then (fst p, a) else p) e.
Definition delete (e : entries) (k : key) : entries := filter (fun p => negb (bytes_eqb (fst p) k)) e.
Definition put (e : entries) (k : key) (a : A) : entries := match find e k with Some _ => replace e k a | None => e ++ [(k, a)] end.

Inductive op := OSet (k : key) (a : A) | ORemove (k : key) | OGet (k : key) | OHas (k : key) | OKeys | OCall.
Inductive res := RDone | RValue (a : option A) | RBool (b : bool) | RKeys (l : list key).
Definition no_comma (k : key) : Prop := ~ In comma k.
(** One operation on the entries *)
Definition dict_step (e : entries) (o : op) : res * entries :=
  match o with
  | OSet k a => (RDone, put e k a)
  | ORemove k => (RDone, delete e k)
  | OGet k => (RValue (find e k), e)
  | OHas k => (RBool (match find e k with Some _ => true | None => false end), e)
  | OKeys => (RKeys (map fst e), e)
  | OCall => (RDone, e)
  end.
Fixpoint dict_run (e : entries) (os : list op) : list res :=
  match os with [] => [] | o :: r => fst (dict_step e o) :: dict_run (snd (dict_step e o)) r end.

(** The dictionary as it is: the first removal of a key that this call has put in does nothing.  [fresh] are those keys, [gone] the
    keys that this call has removed. *)
Record marked := Marked { m_e : entries; m_fresh : key -> bool; m_gone : key -> bool }.
Definition mark_step (m : marked) (o : op) : res * marked :=
  let e := m_e m in
  match o with
  | OSet k a =>
      match find e k with
      | Some _ => (RDone, Marked (replace e k a) (m_fresh m) (m_gone m))
      | None => (RDone, Marked (e ++ [(k, a)]) (upd (m_fresh m) k (negb (m_gone m k))) (upd (m_gone m) k false))
      end
  | ORemove k =>
      if m_fresh m k then (RDone, Marked e (upd (m_fresh m) k false) (m_gone m))
      else match find e k with
           | Some _ => (RDone, Marked (delete e k) (m_fresh m) (upd (m_gone m) k true))
           | None => (RDone, m)
           end
  | OCall => (RDone, Marked e (fun _ => false) (fun _ => false))
  | _ => (fst (dict_step e o), m)
  end.
Fixpoint mark_run (m : marked) (os : list op) : list res :=
  match os with [] => [] | o :: r => fst (mark_step m o) :: mark_run (snd (mark_step m o)) r end.

(** Between calls the keys are kept as one string; a single key of at most one character is not kept. *)
Definition kept (l : list key) : Prop := match l with [k] => 1 < zlen k | _ => True end.
(** The operations have keys without commas, values that are read back, and keys that are kept at the end of each call. *)
Definition good_op (readable : key -> A -> Prop) (o : op) : Prop := match o with OSet k a => no_comma k /\ readable k a | _ => True end.
Fixpoint kept_run (m : marked) (os : list op) : Prop :=
  match os with [] => True | o :: r => (o = OCall -> kept (map fst (m_e m))) /\ kept_run (snd (mark_step m o)) r end.
Fixpoint no_fresh_removed (m : marked) (os : list op) : Prop :=
  match os with [] => True | o :: r => (forall k, o = ORemove k -> m_fresh m k = false) /\ no_fresh_removed (snd (mark_step m o)) r end.
End DICT.
Arguments op : clear implicits.
Arguments res : clear implicits.
Arguments entries : clear implicits.
Arguments marked : clear implicits.

(** The model, run over operations *)
Section RUN.
Context {A V : Type} (o2r : A -> V) (r2o : V -> option A) (nested : bool) (make : key -> V).
Definition step (x : st A V) (o : op A) : option (res A * st A V) :=
  match o with
  | OSet k a => match d_set o2r nested make x k a with Some y => Some (RDone, y) | None => None end
  | ORemove k => Some (RDone, d_remove nested make x k)
  | OGet k => let (v, y) := d_get r2o nested make x k in Some (RValue v, y)
  | OHas k => let (b, y) := d_contains x k in Some (RBool b, y)
  | OKeys => let (l, y) := d_keys x in Some (RKeys l, y)
  | OCall => Some (RDone, next_call x)
  end.
Fixpoint run (x : st A V) (os : list (op A)) : option (list (res A)) :=
  match os with
  | [] => Some []
  | o :: r => match step x o with Some (v, y) => match run y r with Some l => Some (v :: l) | None => None end | None => None end
  end.
Definition empty_st : st A V := (Store (fun _ => None) [], new_obj).
(** The state after the operations *)
Fixpoint after (x : st A V) (os : list (op A)) : option (st A V) :=
  match os with [] => Some x | o :: r => match step x o with Some (_, y) => after y r | None => None end end.
End RUN.
Definition no_marks {A} : marked A := Marked [] (fun _ => false) (fun _ => false).
(** Every second of a list, from the second on *)
Fixpoint second {T} (l : list T) : list T := match l with _ :: b :: r => b :: second r | _ => [] end.

(** Properties: what is set is there, what is unset is not there in this call and is the default from the next call on. *)
Inductive pop_ := QSet (k : key) (v : option prop) | QGet (k : key) | QCall.
Section PROPS.
Variable default : key -> option prop.
Record ideal := Ideal { i_set : key -> option prop; i_unset : key -> bool }.
Definition i_get (i : ideal) (k : key) : option prop := if i_unset i k then None else match i_set i k with Some v => Some v | None => default k end.
Definition i_step (i : ideal) (o : pop_) : option prop * ideal :=
  match o with
  | QGet k => (i_get i k, i)
  | QSet k (Some v) => (None, Ideal (fun k' => if bytes_eqb k' k then Some v else i_set i k') (fun k' => if bytes_eqb k' k then false else i_unset i k'))
  | QSet k None => (None, match i_get i k with
      | None => i
      | Some _ => Ideal (fun k' => if bytes_eqb k' k then None else i_set i k') (fun k' => if bytes_eqb k' k then true else i_unset i k')
      end)
  | QCall => (None, Ideal (i_set i) (fun _ => false))
  end.
Fixpoint i_run (i : ideal) (os : list pop_) : list (option prop) :=
  match os with [] => [] | o :: r => fst (i_step i o) :: i_run (snd (i_step i o)) r end.
End PROPS.
(** The model, run over operations *)
Section PROPSRUN.
Context (int_bytes : Z -> list Z) (bytes_int : list Z -> Z) (address : list Z -> bool) (reads : key -> list Z -> bool) (default : key -> option prop).
Definition q_step (p : props) (o : pop_) : option (option prop * props) :=
  match o with
  | QGet k => p_get bytes_int address reads default p k
  | QSet k v => match p_set int_bytes bytes_int address reads default p k v with Some q => Some (None, q) | None => None end
  | QCall => Some (None, p_next_call p)
  end.
Fixpoint q_run (p : props) (os : list pop_) : option (list (option prop)) :=
  match os with
  | [] => Some []
  | o :: r => match q_step p o with Some (v, q) => match q_run q r with Some l => Some (v :: l) | None => None end | None => None end
  end.
Fixpoint q_after (p : props) (os : list pop_) : option props :=
  match os with [] => Some p | o :: r => match q_step p o with Some (_, q) => q_after q r | None => None end end.
Definition empty_props : props := Props (fun _ => None) (fun _ => None) (fun _ => false).
End PROPSRUN.
(** Values that come back as they are: anything but a bool, an address and an object as their readers take them *)
Definition plain (address : list Z -> bool) (reads : key -> list Z -> bool) (k : key) (v : prop) : Prop :=
  match v with VBool _ => False | VAddress b => address b = true | VObj b => reads k b = true | _ => True end.
Definition plain_op (address : list Z -> bool) (reads : key -> list Z -> bool) (o : pop_) : Prop := match o with QSet k (Some v) => plain address reads k v | _ => True end.
