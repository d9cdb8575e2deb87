(** What the token service should keep to, said over its books and what it did. *)
From Coq Require Import ZArith List Bool.
From Verif Require Import Base M_JMap M_JBmc M_Tbsh S_Ncs.
Import ListNotations.
Open Scope Z_scope.

(** Of a token in a list of assets: what is sent on, the fee, and both. *)
Definition tnet (n : Z) (l : list tasset) : Z := sumOf (fun x => if a_name x =? n then a_value x else 0) l.
Definition tfee (n : Z) (l : list tasset) : Z := sumOf (fun x => if a_name x =? n then a_fee x else 0) l.
Definition ttotal (n : Z) (l : list tasset) : Z := tnet n l + tfee n l.
(** The books: of a token, usable, locked and refundable of everybody. *)
Definition booksOf (s : tb) (n : Z) : Z := sumOf (fun x => if fst (fst x) =? n then l_usable (snd x) + l_locked (snd x) + l_refundable (snd x) else 0) (b_bal s).
(** The history of a user [u] and a token [n]. *)
Section HISTORY.
Variable log : list tout.
Definition deposited (u n : Z) : Z := sumOf (fun e => match e with TDeposit _ k o v => if (o =? u) && (k =? n) then v else 0 | _ => 0 end) log.
Definition taken (u n : Z) : Z := sumOf (fun e => match e with TStart o _ _ l => if o =? u then ttotal n l else 0 | _ => 0 end) log.
Definition arrived (u n : Z) : Z := sumOf (fun e => match e with TDone o _ c l => if (o =? u) && (c =? T_OK) then ttotal n l else 0 | _ => 0 end) log.
Definition refused (u n : Z) : Z := sumOf (fun e => match e with TDone o _ c l => if (o =? u) && negb (c =? T_OK) then ttotal n l else 0 | _ => 0 end) log.
Definition undone (u n : Z) : Z := sumOf (fun e => match e with TUndone o _ l => if o =? u then tnet n l else 0 | _ => 0 end) log.
Definition stuck (u n : Z) : Z := sumOf (fun e => match e with TUndone o _ l => if o =? u then tfee n l else 0 | _ => 0 end) log.
(** Of everybody. *)
Definition allDeposited (n : Z) : Z := sumOf (fun e => match e with TDeposit _ k _ v => if k =? n then v else 0 | _ => 0 end) log.
Definition allPaid (n : Z) : Z := sumOf (fun e => match e with TPaid _ k _ v => if k =? n then v else 0 | _ => 0 end) log.
Definition sentOff (n : Z) : Z := sumOf (fun e => match e with TDone _ _ c l => if c =? T_OK then tnet n l else 0 | _ => 0 end) log.
Definition feesTaken (n : Z) : Z := sumOf (fun e => match e with TDone _ _ c l => if c =? T_OK then tfee n l else 0 | _ => 0 end) log.
Definition feesGathered (n : Z) : Z := sumOf (fun e => match e with TGather _ l => tnet n l | _ => 0 end) log.
Definition feesReturned (n : Z) : Z := sumOf (fun e => match e with TFeesEnd _ c l => if c =? T_ERR then tnet n l else 0 | _ => 0 end) log.
(** Tokens of a contract that came in and went out. *)
Definition cameIn (tok : Z) : Z := sumOf (fun e => match e with TDeposit k _ _ v => if k =? tok then v else 0 | _ => 0 end) log.
Definition wentOut (tok : Z) : Z := sumOf (fun e => match e with TPaid k _ _ v => if k =? tok then v else 0 | _ => 0 end) log.
(** Transfers by number. *)
Definition tstarts : list Z := flat_map (fun e => match e with TStart _ _ k _ => [k] | _ => [] end) log.
Definition tends (sn : Z) : Z := sumOf (fun e => match e with TDone _ k _ _ | TUndone _ k _ => if k =? sn then 1 else 0 | _ => 0 end) log.
End HISTORY.
Definition in_transit (s : tb) (u n : Z) : Z := sumOf (fun x => if m_from (snd x) =? u then ttotal n (m_assets (snd x)) else 0) (b_pend s).

(** Nobody sets balances by hand (nothing in the contract keeps anybody from doing so). *)
Definition no_hand (l : list (text_ * top)) : Prop := Forall (fun yo => match snd yo with TSetBalance _ _ _ _ _ _ => False | _ => True end) l.
(** Only positive amounts are transferred, and the fee is a share of the amount (nothing in the contract demands it). *)
Definition sane (l : list (text_ * top)) : Prop :=
  Forall (fun yo => match snd yo with TTransfer _ _ v _ => 0 < v | TRegister _ _ num _ => 0 <= num <= 10000 | _ => True end) l.
