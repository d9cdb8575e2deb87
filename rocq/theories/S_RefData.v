(** What is asked of the price feed. *)
From Coq Require Import ZArith List.
From Verif Require Import M_RefData.
Import ListNotations.
Open Scope Z_scope.

(** The last update of a symbol among those told in events *)
Definition newest (l : list rupd) (sym : list Z) (u : rupd) : Prop :=
  exists before after, l = before ++ u :: after /\ u_sym u = sym /\ forall v, In v after -> u_sym v <> sym.
(** The updates the owner sent: lists of one length, put together entry by entry *)
Definition sent (k : rcall) (us : list rupd) : Prop :=
  k_caller k = k_owner k /\ k_syms k = map u_sym us /\ k_rates k = map u_rate us /\ k_times k = map u_time us /\ k_ids k = map u_id us.
Inductive told : list rcall -> list rupd -> Prop :=
| told_none : told [] []
| told_sent : forall l us k vs, told l us -> sent k vs -> told (l ++ [k]) (us ++ vs)
| told_refused : forall l us k, told l us -> (forall vs, ~ sent k vs) -> told (l ++ [k]) us.
