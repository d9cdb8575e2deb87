(** What many message centers together should guarantee about a message from its start to its last copy. *)
From Coq Require Import String Ascii ZArith List Bool.
From Verif Require Import Base M_JMap M_JBmc S_JBmc M_Net.
Import ListNotations.
Open Scope Z_scope.

(** A message is named by the network that started it and the number it gave it; answers carry the name of what they
    answer. *)
Definition carries (id : Z * Z) (m : msg) : bool := zz_eqb (msg_id m) id.
Definition forward (m : msg) : bool := 0 <? m_nsn m.
Definition count {A} (P : A -> bool) (l : list A) : Z := zlen (filter P l).
Definition total (f : Z -> Z) (nets : list Z) : Z := fold_right (fun n a => f n + a) 0 nets.

(** Two messages that differ at most in the fees. *)
Definition same_content (m m' : msg) : Prop :=
  m_src m = m_src m' /\ m_dst m = m_dst m' /\ m_svc m = m_svc m' /\ m_sn m = m_sn m' /\ m_pay m = m_pay m' /\ m_nsn m = m_nsn m'.
(** [m] is a copy of [m0]; or the answer of the service it was for; or an error that says it got no further. *)
Definition belongs (m0 m : msg) : Prop :=
  (0 < m_nsn m /\ same_content m m0) \/
  (m_nsn m = - m_nsn m0 /\ m_nsn m < 0 /\ m_dst m = m_src m0 /\ m_svc m = m_svc m0 /\ 0 < m_sn m0 /\
    ((m_sn m = 0 /\ m_src m = m_dst m0) \/ (m_sn m = - m_sn m0 /\ exists code, m_pay m = PError code))).

Section NET.
Variables (acc : Z -> Z) (nets : list Z).
(** Copies of the message under way, of the message or an answer. *)
Definition copies_flying (w : world) (id : Z * Z) : Z :=
  total (fun p => total (fun n => count (fun m => forward m && carries id m) (flying acc w p n)) nets) nets.
Definition all_flying (w : world) (id : Z * Z) : Z := total (fun p => total (fun n => count (carries id) (flying acc w p n)) nets) nets.
(** How often it was handed to the network it is for. *)
Definition arrived (w : world) (id : Z * Z) : Z :=
  total (fun n => count (fun x => forward (snd x) && carries id (snd x) && (m_dst (snd x) =? n)) (w_in w n)) nets.
(** How many networks still owe the answer, and how many answers have arrived at the network that asked. *)
Definition owing (w : world) (id : Z * Z) : Z :=
  total (fun n => count (fun x => zz_eqb (fst (fst (fst x)), r_nsn (snd x)) id) (s_resp (w_st w n))) nets.
Definition answered (w : world) (id : Z * Z) : Z :=
  total (fun n => count (fun x => negb (forward (snd x)) && carries id (snd x) && (m_dst (snd x) =? n)) (w_in w n)) nets.
(** The network has given the number to a message. *)
Definition was_started (w : world) (id : Z * Z) : Prop := exists next, In (OEvent (fst id) (snd id) next SEND) (s_out (w_st w (fst id))).
End NET.
