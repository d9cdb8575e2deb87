(** Specification for log levels and options. *)
From Coq Require Import ZArith List Bool.
From Verif Require Import Base M_Misc.
Import ListNotations.
Open Scope Z_scope.

(** A configuration step, and the level in force for a module after a history of steps (newest last). *)
Inductive setting := SetMod (m : list Z) (l : Z) | SetDef (l : Z).
Definition apply_setting (f : filter_t) (s : setting) : filter_t := match s with SetMod m l => SetModuleLevel f m l | SetDef l => SetDefaultLevel f l end.
Inductive last_mod (m : list Z) : list setting -> option Z -> Prop :=
| lm_nil : last_mod m [] None
| lm_set : forall h l, last_mod m (h ++ [SetMod m l]) (Some l)
| lm_other : forall h m' l r, m' <> m -> last_mod m h r -> last_mod m (h ++ [SetMod m' l]) r
| lm_def : forall h l r, last_mod m h r -> last_mod m (h ++ [SetDef l]) r.
Inductive last_def (d : Z) : list setting -> Z -> Prop :=
| ld_nil : last_def d [] d
| ld_set : forall h l, last_def d (h ++ [SetDef l]) l
| ld_mod : forall h m l r, last_def d h r -> last_def d (h ++ [SetMod m l]) r.
(** The same text up to the case of ASCII letters, where [t] is in lower case. *)
Definition same_letters (s t : list Z) : Prop := Forall2 (fun c d => c = d \/ (65 <= c <= 90 /\ d = c + 32)) s t.
