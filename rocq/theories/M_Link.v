(** Model of common/link/link.go and of the status updates of the relay message items (chain/*/message.go).
    A receiver is any family of answers, one per call: the functions of [receiver] get the number of the call,
    so that a receiver whose data grows between calls is covered.
    Each handler runs to its end before the next event: interleavings inside a handler are not modelled.
    Pointers to link statuses are indices into [heap]; they are what makes relay messages share a status. *)
From Coq Require Import ZArith List Bool.
From Verif Require Import Base.
Import ListNotations.
Open Scope Z_scope.

(** common/types/type.go 44-51; Verifier.Extra is never read here *)
Record bls := mkBls { TxSeq : Z; RxSeq : Z; Height : Z }.
(** common/link/type.go 25-31 *)
Inductive kind := KBlockUpdate | KBlockProof | KMessageProof.
(** common/link/type.go 38-57; the getters of btp2/message.go 21-94, ethbr/message.go and bridge/message.go.  The link looks at
    Len() only, the receiver reads the payload when it writes a relay message. *)
Record item := mkItem { it_kind : kind; it_len : Z; it_next : bls; it_start : Z; it_last : Z; it_proofHeight : Z; it_payload : list Z }.
Record rstat := mkRstat { rs_height : Z; rs_seq : Z }.
(** link.go 29-35; bls is a pointer *)
Record rmsg := mkRmsg { rm_id : Z; rm_bls : nat; rm_bpHeight : Z; rm_message : list Z; rm_items : list item }.

(** common/link/type.go 59-68; None and Err are errors, Some None and Ok None are nil proofs; building a message proof may panic *)
Record receiver := mkReceiver {
  r_bus : nat -> bls -> Z -> option (list item);
  r_bp : nat -> bls -> Z -> option (option item);
  r_mp : nat -> bls -> Z -> result (option item);
  r_hfs : nat -> Z -> Z;
  r_msg : nat -> list item -> option (list Z) }.

(** link.go 61-79, the sender's log and the number of calls made so far *)
Record st := mkSt { clk : nat; heap : list bls; rms : list rmsg; rss : list rstat; rmis : list (list item); size : Z; sent : list rmsg }.
(** RPanic and RSpin (a loop that has run out of fuel) carry the state reached. *)
Inductive out := ROk (s : st) | RErr (s : st) | RPanic (s : st) | RSpin (s : st).
Definition obind (o : out) (f : st -> out) : out := match o with ROk s => f s | x => x end.
(** an error that the caller drops *)
Definition ignore (o : out) : out := match o with RErr s => ROk s | x => x end.

Definition b0 := mkBls 0 0 0.
Definition getb (s : st) (p : nat) : bls := nth p (heap s) b0.
Fixpoint set_nth {A} (l : list A) (n : nat) (x : A) : list A :=
  match l, n with [], _ => [] | _ :: r, O => x :: r | y :: r, S m => y :: set_nth r m x end.
Definition tick (s : st) := mkSt (S (clk s)) (heap s) (rms s) (rss s) (rmis s) (size s) (sent s).
Definition set_bls (p : nat) (b : bls) (s : st) := mkSt (clk s) (set_nth (heap s) p b) (rms s) (rss s) (rmis s) (size s) (sent s).
Definition set_rmis (r : list (list item)) (z : Z) (s : st) := mkSt (clk s) (heap s) (rms s) (rss s) r z (sent s).
Definition set_rms (r : list rmsg) (s : st) := mkSt (clk s) (heap s) r (rss s) (rmis s) (size s) (sent s).
Definition set_rss (r : list rstat) (s : st) := mkSt (clk s) (heap s) (rms s) r (rmis s) (size s) (sent s).
Definition add_sent (m : rmsg) (s : st) := mkSt (clk s) (heap s) (rms s ++ [m]) (rss s) (rmis s) (size s) (sent s ++ [m]).

(** the statement l.rmi.rmis[len(l.rmi.rmis)-1] = append(l.rmi.rmis[len(l.rmi.rmis)-1], x): panics when there is no list *)
Fixpoint app_last (ls : list (list item)) (x : item) : option (list (list item)) :=
  match ls with
  | [] => None
  | [l] => Some [l ++ [x]]
  | l :: r => match app_last r x with Some r' => Some (l :: r') | None => None end
  end.
Definition append_item (x : item) (s : st) : out :=
  match app_last (rmis s) x with Some r => ROk (set_rmis r (size s + it_len x) s) | None => RPanic s end.
(** btp2/message.go 29-34, ethbr/message.go 30-35: the status behind the pointer becomes the item's next status *)
Definition UpdateBMCLinkStatus (x : item) (p : nat) (s : st) : out := ROk (set_bls p (it_next x) s).

Section LINK.
Variable R : receiver.
Variable TxSizeLimit limitSize : Z.
Variable rand : nat -> Z.

(** link.go 450-453 *)
Definition createRelayMessageItem (s : st) : st := set_rmis (rmis s ++ [[]]) 0 s.
(** link.go 442-448 *)
Definition isOverLimit (s : st) : st * bool := if TxSizeLimit <? size s then (createRelayMessageItem s, true) else (s, false).

(** link.go 379-393; the error leaves the collected items in place *)
Fixpoint append_loop (p : nat) (ls : list (list item)) (s : st) : st * option (list rmsg) :=
  match ls with
  | [] => (s, Some [])
  | l :: r =>
      match r_msg R (clk s) l with
      | None => (tick s, None)
      | Some m =>
          let s1 := tick s in let id := rand (clk s1) in
          let s2 := tick s1 in let h := r_hfs R (clk s2) (RxSeq (getb s2 p)) in
          match append_loop p r (tick s2) with
          | (s', Some ms) => (s', Some (mkRmsg id p h m l :: ms))
          | (s', None) => (s', None)
          end
      end
  end.
(** link.go 377-398 *)
Definition appendRelayMessage (p : nat) (s : st) : st * option (list rmsg) :=
  match append_loop p (rmis s) s with (s', Some ms) => (set_rmis [] 0 s', Some ms) | (s', None) => (s', None) end.
(** link.go 233-244 *)
Definition sendRelayMessage (p : nat) (s : st) : out :=
  match appendRelayMessage p s with (s', Some ms) => ROk (fold_left (fun s m => add_sent m s) ms s') | (s', None) => RErr s' end.

(** link.go 345-358 *)
Definition buildMessageProof (p : nat) (s : st) : out :=
  match r_mp R (clk s) (getb s p) (limitSize - size s) with
  | Panic => RPanic (tick s)
  | Err _ => RErr (tick s)
  | Ok None => ROk (tick s)
  | Ok (Some m) => obind (append_item m (tick s)) (UpdateBMCLinkStatus m p)
  end.
(** link.go 360-375 *)
Definition buildBlockProof (p : nat) (h : Z) (s : st) : out :=
  match r_bp R (clk s) (getb s p) h with
  | None => RErr (tick s)
  | Some None => ROk (tick s)
  | Some (Some m) => obind (append_item m (tick s)) (UpdateBMCLinkStatus m p)
  end.

(** link.go 301-332; line 308 calls a method of the nil interface when there is no block update.
    Lines 322-326 compare a variable with the value just assigned to it, so they do nothing. *)
Fixpoint proof_loop (fuel : nat) (p : nat) (bu : option item) (seq : Z) (s : st) : out :=
  match fuel with
  | O => RSpin s
  | S f =>
      if seq <=? RxSeq (getb s p) then ROk s
      else
        let (s1, over) := isOverLimit s in
        if over then
          obind (ignore (sendRelayMessage p s1)) (fun s2 =>
          match bu with
          | None => RPanic s2
          | Some _ =>
              let h := r_hfs R (clk s2) (RxSeq (getb s2 p)) in
              obind (buildBlockProof p h (tick s2)) (fun s3 => obind (buildMessageProof p s3) (proof_loop f p bu seq))
          end)
        else
          let s2 := match bu with None => tick s1 | Some u => if it_proofHeight u =? -1 then tick s1 else s1 end in
          obind (buildMessageProof p s2) (proof_loop f p bu seq)
  end.
(** link.go 336-343 *)
Fixpoint getReceiveStatusForHeight (l : list rstat) (h : Z) : option rstat :=
  match l with [] => None | r :: l' => if rs_height r =? h then Some r else getReceiveStatusForHeight l' h end.
(** link.go 295-334 *)
Definition buildProof (fuel : nat) (p : nat) (bu : option item) (s : st) : out :=
  match getReceiveStatusForHeight (rss s) (Height (getb s p)) with
  | None => ROk s
  | Some r => proof_loop fuel p bu (rs_seq r) s
  end.

(** link.go 246-256 *)
Fixpoint getHeader (fuel : nat) (p : nat) (s : st) : st + (st * option (list item)) :=
  match fuel with
  | O => inl s
  | S f =>
      match r_bus R (clk s) (getb s p) (limitSize - size s) with
      | None => inr (tick s, None)
      | Some [] => getHeader f p (tick s)
      | Some bus => inr (tick s, Some bus)
      end
  end.
(** link.go 208-223 *)
Fixpoint update_loop (fuel : nat) (p : nat) (bus : list item) (s : st) : out :=
  match bus with
  | [] => ROk s
  | bu :: r =>
      obind (append_item bu s) (fun s1 => obind (UpdateBMCLinkStatus bu p s1) (fun s2 =>
      obind (buildProof fuel p (Some bu) s2) (fun s3 => obind (sendRelayMessage p s3) (update_loop fuel p r))))
  end.
(** link.go 196-231 *)
Definition BuildRelayMessage (fuel : nat) (p : nat) (s : st) : out :=
  let s0 := match rmis s with [] => createRelayMessageItem s | _ => s end in
  match getHeader fuel p s0 with
  | inl s1 => RSpin s1
  | inr (s1, None) => RErr s1
  | inr (s1, Some bus) =>
      obind (update_loop fuel p bus s1) (fun s2 =>
      let (s3, over) := isOverLimit s2 in if over then ignore (sendRelayMessage p s3) else ROk s3)
  end.

(** link.go 258-293 *)
Fixpoint check_loop (fuel : nat) (p : nat) (lastSeq : Z) (s : st) : out :=
  match fuel with
  | O => RSpin s
  | S f =>
      let h := r_hfs R (clk s) lastSeq in let s1 := tick s in
      if h =? 0 then ROk s1
      else if h =? Height (getb s1 p) then
        match r_mp R (clk s1) (getb s1 p) (limitSize - size s1) with
        | Panic => RPanic (tick s1)
        | Err _ => RErr (tick s1)
        | Ok None => ROk (tick s1)
        | Ok (Some m) =>
            if negb (it_len m =? 0) || (RxSeq (getb s1 p) <? it_last m) then append_item m (tick s1) else ROk (tick s1)
        end
      else if h <? Height (getb s1 p) then obind (buildProof f p None s1) (check_loop f p lastSeq)
      else ROk s1
  end.
Definition checkStatus (fuel : nat) (p : nat) (s : st) : out :=
  obind (check_loop fuel p (RxSeq (getb s p)) s) (fun s1 => if 0 <? size s1 then ignore (sendRelayMessage p s1) else ROk s1).

(** link.go 178-185 *)
Fixpoint clear_rms (s : st) (b : bls) (l : list rmsg) : option (list rmsg) :=
  match l with
  | [] => None
  | m :: r => if (Height (getb s (rm_bls m)) <=? Height b) && (RxSeq (getb s (rm_bls m)) <=? RxSeq b) then Some r else clear_rms s b r
  end.
Definition clearRelayMessage (b : bls) (s : st) : st := match clear_rms s b (rms s) with Some r => set_rms r s | None => s end.
(** link.go 187-194; the same loop is in btp2.go 245-252, bridge.go 264-271 and ethbr/receiver.go 181-188 *)
Fixpoint clear_rss (b : bls) (l : list rstat) : option (list rstat) :=
  match l with
  | [] => None
  | r :: l' => if (rs_height r <=? Height b) && (rs_seq r <=? RxSeq b) then Some l' else clear_rss b l'
  end.
Definition clearReceiveStatus (b : bls) (s : st) : st := match clear_rss b (rss s) with Some r => set_rss r s | None => s end.

(** link.go 404-413: the last match, or 0 *)
Fixpoint last_index (id : Z) (i : nat) (l : list rmsg) (acc : nat) : nat :=
  match l with [] => acc | m :: r => last_index id (S i) r (if rm_id m =? id then i else acc) end.
Definition removeRelayMessage (id : Z) (s : st) : out :=
  let i := last_index id 0 (rms s) 0 in
  match nth_error (rms s) i with None => RPanic s | Some _ => ROk (set_rms (skipn i (rms s)) s) end.
(** link.go 433-440 *)
Fixpoint searchRelayMessage (id : Z) (l : list rmsg) : option rmsg :=
  match l with [] => None | m :: r => if rm_id m =? id then Some m else searchRelayMessage id r end.
(** link.go 417-422; both errors are dropped *)
Definition updateBlockProof (fuel : nat) (id : Z) (s : st) : out :=
  match searchRelayMessage id (rms s) with
  | None => RPanic s
  | Some m => obind (ignore (buildProof fuel (rm_bls m) None s)) (fun s1 => ignore (sendRelayMessage (rm_bls m) s1))
  end.

(** Codes: errors.BMVUnknown .. (common/link uses 25-28) *)
Definition BMVUnknown := 25. Definition BMVNotVerifiable := 26. Definition BMVAlreadyVerified := 27. Definition BMVRevertInvalidBlockWitnessOld := 28.
(** link.go 459-475, between the two calls of Lock; [status] is the sender's answer to GetStatus *)
Definition result_body (fuel : nat) (id code : Z) (status : option bls) (s : st) : out :=
  if code =? BMVUnknown then RPanic s
  else if code =? BMVNotVerifiable then
    match status with
    | None => RErr s
    | Some b => let p := length (heap s) in
        ignore (BuildRelayMessage fuel p (mkSt (clk s) (heap s ++ [b]) (rms s) (rss s) (rmis s) (size s) (sent s)))
    end
  else if code =? BMVAlreadyVerified then removeRelayMessage id s
  else if code =? BMVRevertInvalidBlockWitnessOld then updateBlockProof fuel id s
  else RPanic s.

(** The link with its two goroutines.  rmsMtx is locked by [result] only (link.go 456-457), never unlocked. *)
Inductive phase := Running | Blocked | Crashed | Spinning.
Record lk := mkLk { l_st : st; l_ptr : nat; l_once : bool; l_mtx : bool; l_sender : phase; l_receiver : phase }.
Inductive event := Notify (r : rstat) | Status (b : bls) | Result (id code : Z) (status : option bls).

Definition after (o : out) : st * phase :=
  match o with ROk s => (s, Running) | RErr s => (s, Running) | RPanic s => (s, Crashed) | RSpin s => (s, Spinning) end.
(** A panic in a goroutine ends the process. *)
Definition dead (k : lk) : bool := match l_sender k, l_receiver k with Crashed, _ => true | _, Crashed => true | _, _ => false end.

(** link.go 127-147 (receiver goroutine), 149-176 (sender goroutine), 455-477 (result).
    The call deferred by [result] is Lock again: it waits for itself, also while a panic unwinds. *)
Definition handle (fuel : nat) (k : lk) (e : event) : lk :=
  if dead k then k else
  match e with
  | Notify r =>
      match l_receiver k with
      | Running =>
          let o := if l_once k then ROk (l_st k) else ignore (checkStatus fuel (l_ptr k) (l_st k)) in
          let o' := obind o (fun s => ignore (BuildRelayMessage fuel (l_ptr k) (set_rss (rss s ++ [r]) s))) in
          let (s', ph) := after o' in mkLk s' (l_ptr k) true (l_mtx k) (l_sender k) ph
      | _ => k
      end
  | Status b =>
      match l_sender k with
      | Running => mkLk (clearReceiveStatus b (clearRelayMessage b (l_st k))) (l_ptr k) (l_once k) (l_mtx k) Running (l_receiver k)
      | _ => k
      end
  | Result id code status =>
      match l_sender k with
      | Running =>
          if l_mtx k then mkLk (l_st k) (l_ptr k) (l_once k) true Blocked (l_receiver k)
          else
            match after (result_body fuel id code status (l_st k)) with
            | (s', Spinning) => mkLk s' (l_ptr k) (l_once k) true Spinning (l_receiver k)
            | (s', _) => mkLk s' (l_ptr k) (l_once k) true Blocked (l_receiver k)
            end
      | _ => k
      end
  end.
Definition run (fuel : nat) (k : lk) (es : list event) : lk := fold_left (handle fuel) es k.
(** link.go 81-97 *)
Definition NewLink (b : bls) : lk := mkLk (mkSt 0 [b] [] [] [[]] 0 []) 0 false false Running Running.
End LINK.
