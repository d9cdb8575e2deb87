(** Model of the lists of received records that two goroutines of the relay share without a lock, access by access:
    [append]: common/link/link.go 137 (l.rss), chain/icon/btp2/btp2.go 308, chain/icon/bridge/bridge.go 255 and
    chain/ethbr/receiver.go 254 (rss of the receivers), "rss = append(rss, rs)": the list is read, then written;
    [cut]: link.go 187-194, btp2.go 245-252, bridge.go 264-271, ethbr/receiver.go 181-188, "for i, rs := range rss { if rs.Height() <= .. {
    rss = rss[i+1:]; ..": the list is read for the loop, read again to be sliced, then written.
    In link.go the goroutine of receiverChannel appends and that of senderChannel cuts; in the receivers the goroutine of the monitor
    appends and the one that calls BuildBlockUpdate cuts (receiverChannel).
    A read or write of a list (pointer, length and capacity) is taken to happen at once, in some order: Go promises less for
    racing accesses.  Appending never changes elements of a list that was read before. *)
From Coq Require Import ZArith List Bool.
From Verif Require Import Base M_Link.
Import ListNotations.
Open Scope Z_scope.

Section RACE.
(** the records; Height() and Seq() *)
Variable A : Type.
Variables hgt sq : A -> Z.

Inductive appender := AIdle | ARead (x : A) | AWrite (x : A) (l : list A).
Inductive cutter := CIdle | CRange (b : bls) | CReread (b : bls) (i : nat) | CWrite (b : bls) (i : nat) (l : list A) | CPanic.
(** the list; the two goroutines; and, to speak about the past, the records appended and the statuses worked on *)
Record race := Race { c_list : list A; c_app : appender; c_cut : cutter; c_told : list A; c_seen : list bls }.

(** the condition of the loop, and the index it stops at *)
Definition acked (b : bls) (r : A) : bool := (hgt r <=? Height b) && (sq r <=? RxSeq b).
Fixpoint first_acked (b : bls) (l : list A) : option nat :=
  match l with [] => None | r :: l' => if acked b r then Some O else option_map S (first_acked b l') end.

(** A record arrives, a status arrives (each when its goroutine waits for one); the next access of either goroutine. *)
Inductive act := Arrive (x : A) | Append | StatusIn (b : bls) | Cut.
Definition cstep (w : race) (a : act) : race :=
  match a with
  | Arrive x => match c_app w with AIdle => Race (c_list w) (ARead x) (c_cut w) (c_told w) (c_seen w) | _ => w end
  | Append =>
      match c_app w with
      | AIdle => w
      | ARead x => Race (c_list w) (AWrite x (c_list w)) (c_cut w) (c_told w) (c_seen w)
      | AWrite x l => Race (l ++ [x]) AIdle (c_cut w) (c_told w ++ [x]) (c_seen w)
      end
  | StatusIn b => match c_cut w with CIdle => Race (c_list w) (c_app w) (CRange b) (c_told w) (c_seen w ++ [b]) | _ => w end
  | Cut =>
      match c_cut w with
      | CIdle => w
      | CPanic => w
      | CRange b => Race (c_list w) (c_app w) (match first_acked b (c_list w) with Some i => CReread b i | None => CIdle end) (c_told w) (c_seen w)
      | CReread b i => Race (c_list w) (c_app w) (if (length (c_list w) <? i + 1)%nat then CPanic else CWrite b i (c_list w)) (c_told w) (c_seen w)
      | CWrite b i l => Race (skipn (i + 1) l) (c_app w) CIdle (c_told w) (c_seen w)
      end
  end.
Definition cinit : race := Race [] AIdle CIdle [] [].
Definition crun (w : race) (l : list act) : race := fold_left cstep l w.

(** The heights BuildBlockUpdate makes updates for, given the list after its cut (btp2.go 164-184; [len]: the size of an update); and the
    record BuildMessageProof looks for (btp2.go 325-332, link.go 336-343) *)
Fixpoint update_heights (len : A -> Z) (limit : Z) (l : list A) : list Z :=
  match l with [] => [] | r :: l' => if limit <? len r then [] else hgt r :: update_heights len limit l' end.
Fixpoint for_height (l : list A) (h : Z) : option A :=
  match l with [] => None | r :: l' => if hgt r =? h then Some r else for_height l' h end.
End RACE.
Arguments AIdle {A}. Arguments ARead {A}. Arguments AWrite {A}.
Arguments CIdle {A}. Arguments CRange {A}. Arguments CReread {A}. Arguments CWrite {A}. Arguments CPanic {A}.
Arguments Race {A}. Arguments c_list {A}. Arguments c_app {A}. Arguments c_cut {A}. Arguments c_told {A}. Arguments c_seen {A}.
Arguments Arrive {A}. Arguments Append {A}. Arguments StatusIn {A}. Arguments Cut {A}.
Arguments cinit {A}. Arguments for_height {A}. Arguments update_heights {A}. Arguments acked {A}. Arguments first_acked {A}.
Arguments cstep {A}. Arguments crun {A}.
