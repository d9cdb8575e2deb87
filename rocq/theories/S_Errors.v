(** Specification vocabulary for error chains. *)
From Coq Require Import ZArith List Bool.
From Verif Require Import Base M_Errors.
Import ListNotations.
Open Scope Z_scope.

(** The errors met when unwrapping, outermost first, and whether the chain is cut off by a nil. *)
Inductive chain : gerr -> list gerr -> bool -> Prop :=
| ch_plain : forall i, chain (Plain i) [Plain i] false
| ch_base : forall i c, chain (Base_ i c) [Base_ i c] false
| ch_stack : forall i e l n, chain e l n -> chain (Stacked i e) (Stacked i e :: l) n
| ch_coded : forall i c e l n, chain e l n -> chain (Coded i c (Some e)) (Coded i c (Some e) :: l) n
| ch_coded_nil : forall i c, chain (Coded i c None) [Coded i c None] true
| ch_message : forall i e l n, chain e l n -> chain (Message i (Some e)) (Message i (Some e) :: l) n
| ch_message_nil : forall i, chain (Message i None) [Message i None] true
| ch_wrapped : forall i c e l n, chain e l n -> chain (Wrapped i c (Some e)) (Wrapped i c (Some e) :: l) n
| ch_wrapped_nil : forall i c, chain (Wrapped i c None) [Wrapped i c None] true.

(** What each kind of error says about codes. *)
Definition carries (e : gerr) (c : Z) : Prop :=
  (exists i, e = Base_ i c) \/ (exists i o, e = Coded i c o) \/ (exists i o, e = Wrapped i c o).

(** Uncoded wraps around an error. *)
Inductive wrap := WStack (i : Z) | WMessage (i : Z).
Definition wrap1 (w : wrap) (e : gerr) : gerr := match w with WStack i => Stacked i e | WMessage i => Message i (Some e) end.
Fixpoint wraps (ws : list wrap) (e : gerr) : gerr := match ws with [] => e | w :: ws' => wrap1 w (wraps ws' e) end.

(** The families as documented by the constants: a family starts at its constant and ends before the next. *)
Definition family_of (c : Z) : family :=
  if c <? 10 then BTPRevert else if c <? 25 then BMCRevert else if c <? 40 then BMVRevert else if c <? 55 then BSHRevert else ReservedRevert.
