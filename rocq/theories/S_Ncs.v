(** What the native coin service should keep to, said over its books and its events. *)
From Coq Require Import ZArith List Bool.
From Verif Require Import Base M_JMap M_JBmc M_Ncs.
Import ListNotations.
Open Scope Z_scope.

Definition sumOf {A} (f : A -> Z) (l : list A) : Z := fold_right (fun x a => f x + a) 0 l.
(** Of a coin in a transfer: the value taken from the sender, what is sent on, and the fee. *)
Definition value_of (c : Z) (ds : list detail) : Z := sumOf (fun d => if d_coin d =? c then d_amount d + d_fee d else 0) ds.
Definition net_of (c : Z) (ds : list detail) : Z := sumOf (fun d => if d_coin d =? c then d_amount d else 0) ds.
Definition fee_of (c : Z) (ds : list detail) : Z := sumOf (fun d => if d_coin d =? c then d_fee d else 0) ds.
(** The books: what is locked and refundable of a coin, of everybody. *)
Definition lockedSum (s : ncs) (c : Z) : Z := sumOf (fun x => if fst (fst x) =? c then fst (snd x) else 0) (n_bal s).
Definition refundSum (s : ncs) (c : Z) : Z := sumOf (fun x => if fst (fst x) =? c then snd (snd x) else 0) (n_bal s).
(** The tokens of an id, of everybody. *)
Definition tokens (s : ncs) (i : Z) : Z := sumOf (fun x => if fst (fst x) =? i then snd x else 0) (n_tok s).
(** What is pending of a coin for an owner. *)
Definition pending (s : ncs) (c o : Z) : Z := sumOf (fun x => if t_from (snd x) =? o then value_of c (t_assets (snd x)) else 0) (n_tx s).

(** The history, from the events: transfers started, how they ended, what was paid and reclaimed. *)
Fixpoint started_as (sn : Z) (log : list nout) : option (Z * btpaddr * list detail) :=
  match log with
  | [] => None
  | NStart o to k ds :: r => if k =? sn then Some (o, to, ds) else started_as sn r
  | _ :: r => started_as sn r
  end.
Definition details_of (log : list nout) (sn : Z) : list detail := match started_as sn log with Some (_, _, ds) => ds | None => [] end.
Definition started_sum (f : list detail -> Z) (log : list nout) : Z := sumOf (fun e => match e with NStart _ _ _ ds => f ds | _ => 0 end) log.
Definition settled_sum (f : list detail -> Z) (log : list nout) : Z :=
  sumOf (fun e => match e with NEnd _ sn code => if code =? RC_OK then f (details_of log sn) else 0 | _ => 0 end) log.
Definition returned_sum (f : list detail -> Z) (log : list nout) : Z :=
  sumOf (fun e => match e with NEnd _ sn code => if code =? RC_OK then 0 else f (details_of log sn) | _ => 0 end) log.
Definition paid_sum (log : list nout) : Z := sumOf (fun e => match e with NPay _ v => v | _ => 0 end) log.
Definition reclaimed_sum (c : Z) (log : list nout) : Z := sumOf (fun e => match e with NReclaim _ n v => if n =? c then v else 0 | _ => 0 end) log.
(** How often a transfer ended. *)
Definition ends (sn : Z) (log : list nout) : Z := sumOf (fun e => match e with NEnd _ k _ => if k =? sn then 1 else 0 | _ => 0 end) log.
Definition start_numbers (log : list nout) : list Z := flat_map (fun e => match e with NStart _ _ k _ => [k] | _ => [] end) log.

(** Who makes a call; the service does not call itself. *)
Definition ncaller (o : nop) : Z :=
  match o with
  | Register c _ | SetFeeRatio c _ | NAddOwner c _ | NRemoveOwner c _ | Reclaim c _ _ | TransferNative c _ _ | Transfer c _ _ _ | TransferBatch c _ _ _ _
  | HandleMessage c _ _ _ | HandleError c _ => c
  | MoveTokens a _ _ _ => a
  end.
