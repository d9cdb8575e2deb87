(** Specification for the link: what a well-behaved receiver answers, and what the stream of relayed items must be. *)
From Coq Require Import ZArith List Bool.
From Verif Require Import Base M_Link.
Import ListNotations.
Open Scope Z_scope.

(** One item moves the destination's status: a block update moves the height only; a message proof moves the
    received sequence, upwards, to the last sequence it announces. *)
Inductive moves : bls -> item -> bls -> Prop :=
| mv_update : forall b x h, it_kind x = KBlockUpdate -> it_next x = mkBls (TxSeq b) (RxSeq b) h -> moves b x (it_next x)
| mv_proof : forall b x, it_kind x = KBlockProof -> it_next x = b -> moves b x (it_next x)
| mv_message : forall b x, it_kind x = KMessageProof -> RxSeq b < it_last x -> it_next x = mkBls (TxSeq b) (it_last x) (Height b) -> moves b x (it_next x).
(** Items that take the status [b] to the status [c], each starting where the one before ended. *)
Inductive chain : bls -> list item -> bls -> Prop :=
| ch_nil : forall b, chain b [] b
| ch_cons : forall b x c r d, moves b x c -> chain c r d -> chain b (x :: r) d.

Definition honest (R : receiver) : Prop :=
  (forall t b l bus x, r_bus R t b l = Some bus -> In x bus -> moves b x (it_next x)) /\
  (forall t b h x, r_bp R t b h = Some (Some x) -> moves b x (it_next x)) /\
  (forall t b l x, r_mp R t b l = Ok (Some x) -> moves b x (it_next x)).

(** Sequence ranges (first not included, last included) of the message proofs of a stream that starts at [q]. *)
Fixpoint ranges (q : Z) (is : list item) : list (Z * Z) :=
  match is with
  | [] => []
  | x :: r => match it_kind x with KMessageProof => (q, it_last x) :: ranges (it_last x) r | _ => ranges q r end
  end.

(** The records a status acknowledges. *)
Definition covers (b : bls) (height seq : Z) : Prop := height <= Height b /\ seq <= RxSeq b.
(** Records in the order they were received: heights and sequences do not decrease. *)
Inductive ordered : list rstat -> Prop :=
| or_nil : ordered []
| or_cons : forall r l, (forall x, In x l -> rs_height r <= rs_height x /\ rs_seq r <= rs_seq x) -> ordered l -> ordered (r :: l).
Definition is_result (e : event) : bool := match e with Result _ _ _ => true | _ => false end.
