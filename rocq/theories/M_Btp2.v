(** The link (common/link/link.go, M_Link.v) with the BTP block receiver (chain/icon/btp2/btp2.go, M_Receive.v) as one program:
    the goroutine that follows the source chain, the unbuffered channel to the link, the goroutine of the link that builds
    relay messages, and the statuses the sender reports.
    - The node answers from a table: headers with their proofs and messages by height, or an error.
    - A handler of the link runs to its end; the goroutine of the receiver may run between the link taking a block from the
      channel and the link handling it.  The relay results that the sender reports are left out (M_Link.v has them).
    - Which headers the node notifies is not fixed: it is asked for those from the height after the status on (btp2.go 260).
    - M_Link.v asks its receiver with the number of the call.  Here the receiver has a list of blocks that BuildBlockUpdate
      shortens, so [seen] says what this list is at each call. *)
From Coq Require Import String Ascii ZArith List Bool.
From Verif Require Import Base M_Codec M_Mbt M_Link M_Receive.
From Verif Require M_Wire.
Import ListNotations.
Open Scope Z_scope.

(** btp2.go 94-124: getBtpMessage (None in the list: not base64) and getBtpHeader (header and proof, both decoded) *)
Record node := mkNode { nd_messages : Z -> option (list (option (list Z))); nd_header : Z -> option (list Z * list Z) }.

(** btp2/message.go 63-80 with btp2.go 174 *)
Definition NewBlockUpdate (b : bls) (target : Z) (h p : list Z) : item :=
  let payload := MarshalToBytes (M_Wire.update_val h p) in
  mkItem KBlockUpdate (zlen payload) (mkBls (TxSeq b) (RxSeq b) target) 0 0 target payload.
(** btp2/message.go 97-112 *)
Definition NewMessageProof (b : bls) (ls : Z) (all : bool) (m : mbt_proof) : item :=
  let payload := MarshalToBytes (M_Wire.proof_val all m) in
  mkItem KMessageProof (zlen payload) (mkBls (TxSeq b) ls (Height b)) (RxSeq b) ls 0 payload.
(** btp2/message.go 121-142 *)
Definition typed (x : item) : M_Wire.ritem :=
  match it_kind x with KBlockUpdate => M_Wire.IUpdate (it_payload x) | KMessageProof => M_Wire.IProof (it_payload x) | KBlockProof => M_Wire.IOther end.
(** btp2.go 205: the length the limit is compared with; the proofs measured there leave out the last message, so that
    they come with lists of nodes *)
Definition measured (m : mbt_proof) : Z := zlen (MarshalToBytes (M_Wire.proof_val false m)).

(** btp2.go 245-252 *)
Fixpoint first_done (b : bls) (l : list brs) : option (list brs) :=
  match l with
  | [] => None
  | r :: l' => if (b_height r <=? Height b) && (b_seq r <=? RxSeq b) then Some l' else first_done b l'
  end.
Definition updateReceiveStatus (b : bls) (l : list brs) : list brs := match first_done b l with Some l' => l' | None => l end.

Section RELAY.
Variable H : list Z -> list Z.
Variable N : node.
Variable startHeight TxSizeLimit limitSize : Z.
Variable rand : nat -> Z.
Variable fuel : nat.

(** btp2.go 163-186: the loop over the blocks received *)
Fixpoint updates (l : list brs) (b : bls) (limit : Z) : option (list item) :=
  match l with
  | [] => Some []
  | r :: l' =>
      match nd_header N (b_height r) with
      | None => None
      | Some (h, p) =>
          match M_Wire.relay_height h with
          | None => None
          | Some mh =>
              let x := NewBlockUpdate b mh h p in
              if limit <? it_len x then Some []
              else match updates l' b limit with Some xs => Some (x :: xs) | None => None end
          end
      end
  end.
(** btp2.go 191-222.  The errors and panics are those of mbt.Proof. *)
Definition messageProof (l : list brs) (b : bls) (limit : Z) : result (option item) :=
  match b_BuildMessageProof measured l b limit, b_forHeight l (Height b) with
  | Ok None, _ => Ok None
  | Ok (Some (ls, m)), Some rs =>
      let offset := RxSeq b - (b_seq rs - mbt_Len (b_tree rs)) in
      Ok (Some (NewMessageProof b ls (M_Wire.is_all (b_tree rs) (offset + 1) (offset + zlen (p_contents m))) m))
  | Ok _, None => Ok None
  | Err e, _ => Err e
  | Panic, _ => Panic
  end.
(** The receiver, given its list of blocks at each call.  BuildBlockUpdate first shortens the list (line 162). *)
Definition recv (seen : nat -> list brs) : receiver :=
  mkReceiver (fun t b limit => updates (updateReceiveStatus b (seen t)) b limit)
             (fun _ _ _ => Some None)
             (fun t b limit => messageProof (seen t) b limit)
             (fun t q => b_GetHeightForSeq (seen t) q)
             (fun _ l => M_Wire.BuildRelayMessage (map typed l)).

(** How the list shrinks while the link asks for block updates again and again (link.go 246-256): number of calls and list. *)
Fixpoint shortened (f : nat) (b : bls) (limit : Z) (l : list brs) : nat * list brs :=
  match f with
  | O => (O, l)
  | S f' =>
      let l1 := updateReceiveStatus b l in
      match updates l1 b limit with
      | Some [] => let (n, l2) := shortened f' b limit l1 in (S n, l2)
      | _ => (1%nat, l1)
      end
  end.
Fixpoint times (n : nat) (b : bls) (l : list brs) : list brs := match n with O => l | S n' => times n' b (updateReceiveStatus b l) end.

(** The list at each call while the link handles one block, and at the end: first checkStatus (link.go 133-136), which leaves
    it alone, then the calls of BuildBlockUpdate one after the other, then the others. *)
Definition lists (k : lk) (l : list brs) : (nat -> list brs) * list brs :=
  let o := if l_once k then ROk (l_st k) else ignore (checkStatus (recv (fun _ => l)) TxSizeLimit limitSize rand fuel (l_ptr k) (l_st k)) in
  match o with
  | ROk s =>
      let b := getb s (l_ptr k) in
      let limit := limitSize - size (match rmis s with [] => createRelayMessageItem s | _ => s end) in
      let (n, l') := shortened fuel b limit l in
      (fun t => if (t <? clk s)%nat then l else times (Nat.min (t - clk s) n) b l, l')
  | _ => (fun _ => l, l)
  end.

(** [y_follows]: the chain is followed (btp2.go 255-258: not from height 0; the error goes nowhere, 135-137);
    [y_waiting]: the receiver waits to hand over this block (btp2.go 310); [y_taken]: the link has taken it (link.go 132). *)
Record yst := mkY { y_follows : bool; y_link : lk; y_rss : list brs; y_seq : Z; y_waiting : option rstat; y_taken : option rstat }.
Inductive yevent := Fetch (hdr : list Z) | Take | Build | Told (b : option bls).

Fixpoint decoded (l : list (option (list Z))) : option (list (list Z)) :=
  match l with [] => Some [] | Some m :: r => match decoded r with Some ms => Some (m :: ms) | None => None end | None :: _ => None end.
(** btp2.go 285-313: a notification with a header.  An error is written to the log only (chain/icon/client/client.go 321-323). *)
Definition fetch (y : yst) (hdr : list Z) : yst :=
  if negb (y_follows y) then y else
  match y_waiting y with
  | Some _ => y
  | None =>
      match M_Wire.relay_height hdr with
      | None => y
      | Some h =>
          if h =? startHeight then y
          else match nd_messages N h with
               | None => y
               | Some raw =>
                   let failed := mkY (y_follows y) (y_link y) (y_rss y) (y_seq y + zlen raw) None (y_taken y) in
                   match decoded raw with
                   | None => failed
                   | Some msgs =>
                       match b_notify H startHeight h msgs (y_seq y) (y_rss y) with
                       | Ok (q, l) => mkY (y_follows y) (y_link y) l q (Some (mkRstat h q)) (y_taken y)
                       | _ => failed
                       end
                   end
               end
      end
  end.
(** link.go 132 with btp2.go 310 *)
Definition take (y : yst) : yst :=
  match y_taken y, y_waiting y with
  | None, Some r => mkY (y_follows y) (y_link y) (y_rss y) (y_seq y) None (Some r)
  | _, _ => y
  end.
(** link.go 133-138 *)
Definition build (y : yst) : yst :=
  match y_taken y with
  | None => y
  | Some r =>
      match dead (y_link y), l_receiver (y_link y) with
      | false, Running =>
          let (seen, l') := lists (y_link y) (y_rss y) in
          mkY (y_follows y) (handle (recv seen) TxSizeLimit limitSize rand fuel (y_link y) (Notify r)) l' (y_seq y) (y_waiting y) None
      | _, _ => y
      end
  end.
(** link.go 163-165.  sender.go 151-154 passes on a nil status when it cannot be got; the loops of clearRelayMessage and
    clearReceiveStatus read through it. *)
Definition told (y : yst) (b : option bls) : yst :=
  let k := y_link y in
  let k' := match b with
            | Some b => handle (recv (fun _ => [])) TxSizeLimit limitSize rand fuel k (Status b)
            | None =>
                if dead k then k else
                match l_sender k, rms (l_st k), rss (l_st k) with
                | Running, [], [] => k
                | Running, _, _ => mkLk (l_st k) (l_ptr k) (l_once k) (l_mtx k) Crashed (l_receiver k)
                | _, _, _ => k
                end
            end in
  mkY (y_follows y) k' (y_rss y) (y_seq y) (y_waiting y) (y_taken y).
Definition ystep (y : yst) (e : yevent) : yst :=
  match e with Fetch h => fetch y h | Take => take y | Build => build y | Told b => told y b end.
Definition yrun (y : yst) (es : list yevent) : yst := fold_left ystep es y.
(** link.go 99-121, btp2.go 128-142 and 281-283: started at the status [b] the destination reports *)
Definition ystart (b : bls) : yst := mkY (1 <=? Height b) (NewLink b) [] (RxSeq b) None None.
End RELAY.
