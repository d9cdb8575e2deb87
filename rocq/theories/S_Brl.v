(** What a relay between two chains is for, independently of the relay: the messages in the blocks of one chain, the notifications
    and logs in which they are seen, and what a verifier that is given relay messages has handed over. *)
From Coq Require Import ZArith List Bool Sorted.
From Verif Require Import Base M_Receive M_Brl.
Import ListNotations.
Open Scope Z_scope.

(** Blocks of the source chain with the messages for the destination *)
Record block := Block { k_height : Z; k_msgs : list (list Z) }.
Fixpoint climbing (h : Z) (xs : list block) : Prop :=
  match xs with [] => True | x :: r => h < k_height x < 2 ^ 63 /\ climbing (k_height x) r end.
Definition messages (xs : list block) : list (list Z) := flat_map k_msgs xs.
(** the messages before the first block that does not have exactly one *)
Fixpoint unharmed (xs : list block) : list (list Z) :=
  match xs with x :: r => match k_msgs x with [m] => m :: unharmed r | _ => [] end | [] => [] end.

(** How an ICON node tells of blocks when [q] messages came before them, [offset] of them before the link was there: the upper
    bits of the update number count the messages of the network before the block. *)
Fixpoint noted (offset q : Z) (xs : list block) (ns : list inote) : Prop :=
  match xs, ns with
  | [], [] => True
  | x :: xs', n :: ns' => in_height n = k_height x /\ Z.shiftr (in_update n) 1 = q - offset /\ in_msgs n = Some (map Some (k_msgs x)) /\
                          noted offset (q + zlen (k_msgs x)) xs' ns'
  | _, _ => False
  end.
(** How an EVM node tells of them: the logs of the BMC, among them those for the destination [dst]. *)
Definition mine (dst : list Z) (g : elog) : list (Z * list Z) :=
  match lg_event g with Some (n, next, m) => if list_eq_dec Z.eq_dec next dst then [(n, m)] else [] | None => [] end.
Fixpoint numbered (q : Z) (ms : list (list Z)) : list (Z * list Z) := match ms with [] => [] | m :: r => (q + 1, m) :: numbered (q + 1) r end.
Fixpoint logged (dst : list Z) (q : Z) (xs : list block) (ns : list (Z * list elog)) : Prop :=
  match xs, ns with
  | [], [] => True
  | x :: xs', n :: ns' => fst n = k_height x /\ Forall (fun g => lg_event g <> None /\ lg_block g = k_height x /\ 0 <= lg_tx g < 2 ^ 31) (snd n) /\
                          StronglySorted Z.le (map lg_tx (snd n)) /\
                          flat_map (mine dst) (snd n) = numbered q (k_msgs x) /\ logged dst (q + zlen (k_msgs x)) xs' ns'
  | _, _ => False
  end.

(** A verifier with its BMC: a message that is refused changes nothing, the others are counted. *)
Definition through {S M : Type} (verify : S -> Z -> list Z -> option (S * list M)) (x : S * Z * list M) (p : list Z) : S * Z * list M :=
  match x with (s, n, got) => match verify s n p with Some (s', ms) => (s', n + zlen ms, got ++ ms) | None => x end end.
Definition arrives {S M : Type} (verify : S -> Z -> list Z -> option (S * list M)) (s : S) (n : Z) (ps : list (list Z)) : Z * list M :=
  match fold_left (through verify) ps (s, n, []) with (_, n', got) => (n', got) end.
