(** What is asked of the fund contract, read off what happened (newest first). *)
From Coq Require Import ZArith List Bool.
From Verif Require Import M_CpfTreasury.
Import ListNotations.
Open Scope Z_scope.
Local Notation bytes := (list Z).

(** Coins that came in, were burned, were sent, were sent back *)
Definition came_in (e : centry) : Z := match e with LIn _ v => v | LBack _ _ v => v | _ => 0 end.
Definition burned (e : centry) : Z := match e with LBurn v => v | _ => 0 end.
Definition sent (e : centry) : Z := match e with LFirst _ _ _ _ v => v | LMore _ _ _ _ v => v | _ => 0 end.
Definition sum (f : centry -> Z) (l : list centry) : Z := fold_right (fun e a => f e + a) 0 l.
(** Of one proposal *)
Definition bytes_dec : forall a b : bytes, {a = b} + {a <> b} := list_eq_dec Z.eq_dec.
Definition sent_for (k : bytes) (e : centry) : Z := match e with LFirst _ _ k' _ v => if bytes_dec k k' then v else 0 | LMore _ _ k' _ v => if bytes_dec k k' then v else 0 | _ => 0 end.
Definition back_for (k : bytes) (e : centry) : Z := match e with LBack _ k' v => if bytes_dec k k' then v else 0 | _ => 0 end.
Definition proposed (k : bytes) (l : list centry) : Prop := exists x t b v, In (LFirst x t k b v) l.
(** What was set last *)
Fixpoint last_max (d : Z) (l : list centry) : Z := match l with [] => d | LMax _ v :: _ => v | _ :: r => last_max d r end.
Fixpoint last_cps (l : list centry) : option bytes := match l with [] => None | LCps _ a :: _ => Some a | _ :: r => last_cps r end.
Fixpoint last_tre (l : list centry) : option bytes := match l with [] => None | LTre _ a :: _ => Some a | _ :: r => last_tre r end.
(** The largest limit there ever was *)
Fixpoint top_max (d : Z) (l : list centry) : Z := match l with [] => d | LMax _ v :: r => Z.max v (top_max d r) | _ :: r => top_max d r end.
(** The balance after what happened *)
Definition balance_after (b0 : Z) (l : list centry) : Z := b0 + sum came_in l - sum burned l - sum sent l.

(** Two hundredths, rounded down *)
Definition two_percent (b r : Z) : Prop := 100 * r <= 2 * b < 100 * (r + 1).
(** What may happen after [before] *)
Definition allowed (owner : bytes) (b0 m0 : Z) (e : centry) (before : list centry) : Prop :=
  match e with
  | LMax x _ => x = owner
  | LCps x _ => x = owner
  | LTre x _ => x = owner
  | LIn _ v => 0 <= v
  | LBurn v => 0 < v /\ balance_after b0 before - v = last_max m0 before /\ 0 <= last_max m0 before
               /\ match before with LIn _ _ :: _ => True | LBack _ _ _ :: _ => True | _ => False end
  | LFirst x t k b v => last_cps before = Some x /\ last_tre before = Some t /\ 0 <= b /\ two_percent b (v - b) /\ v <= balance_after b0 before /\ ~ proposed k before
  | LMore x t k b v => last_cps before = Some x /\ last_tre before = Some t /\ 0 <= b /\ two_percent b (v - b) /\ v <= balance_after b0 before /\ proposed k before
  | LBack x k v => last_tre before = Some x /\ 0 <= v /\ proposed k before
  end.
