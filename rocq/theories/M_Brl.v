(** The link (common/link/link.go, M_Link.v) with the receivers of the trust-based bridges, chain/icon/bridge/bridge.go and
    chain/ethbr/receiver.go, as one program; compare M_Btp2.v for the BTP block receiver.
    - A handler of the link runs to its end; the goroutine of the receiver may run between the link taking a block from the
      channel and the link handling it.  The relay results that the sender reports are left out (M_Link.v has them).
    - What differs between the two receivers are parameters: what a notification adds to the list of blocks ([arrive]) and
      how a message proof is made ([mproof]).
    - The numbers of a notification are those of its decoded header (bridge.go 234-243). *)
From Coq Require Import String Ascii ZArith List Bool.
From Verif Require Import Base M_Link M_Receive M_Bridge.
Import ListNotations.
Open Scope Z_scope.

Section RELAY.
(** received blocks with Height() and Seq(); notifications *)
Variable A : Type.
Variables hgt sq : A -> Z.
Variable note : Type.
(** a notification, given the status the link works with (the receiver has a pointer to it) and the number counted to: nothing, or a
    block and the number; and BuildMessageProof: the last number and the payload *)
Variable arrive : note -> bls -> Z -> result (option (Z * A)).
Variable mproof : list A -> bls -> Z -> result (option (Z * list Z)).
Variable TxSizeLimit limitSize : Z.
Variable rand : nat -> Z.
Variable fuel : nat.

(** bridge/message.go 79-95, ethbr/message.go 60-76: no payload *)
Definition blockUpdate (b : bls) (r : A) : item := mkItem KBlockUpdate 0 (mkBls (TxSeq b) (RxSeq b) (hgt r)) 0 0 (hgt r) [].
(** bridge/message.go 111-155, ethbr/message.go 92-143: the item (ethbr leaves startSeq 0, which the link does not read) *)
Definition messageItem (b : bls) (x : Z * list Z) : item :=
  mkItem KMessageProof (zlen (snd x)) (mkBls (TxSeq b) (fst x) (Height b)) (RxSeq b) (fst x) 0 (snd x).
Definition messageProof (l : list A) (b : bls) (limit : Z) : result (option item) :=
  rbind (mproof l b limit) (fun x => Ok (option_map (messageItem b) x)).
(** bridge.go 264-271, ethbr/receiver.go 181-188 *)
Fixpoint first_done (b : bls) (l : list A) : option (list A) :=
  match l with
  | [] => None
  | r :: l' => if (hgt r <=? Height b) && (sq r <=? RxSeq b) then Some l' else first_done b l'
  end.
Definition updateReceiveStatus (b : bls) (l : list A) : list A := match first_done b l with Some l' => l' | None => l end.
(** bridge.go 122-129 and 273-280, ethbr/receiver.go 158-165 and 302-309 *)
Fixpoint heightForSeq (l : list A) (q : Z) : Z :=
  match l with [] => 0 | r :: l' => if (q <=? sq r) && (sq r <=? q) then hgt r else heightForSeq l' q end.
Definition bridgeItem (x : item) : bitem := match it_kind x with KMessageProof => BProof (it_payload x) | _ => BBlock end.

(** The receiver, given its list of blocks at each call.  BuildBlockUpdate (bridge.go 131-139, ethbr/receiver.go 96-104) shortens
    the list first and has an update for every block left. *)
Definition recv (seen : nat -> list A) : receiver :=
  mkReceiver (fun t b _ => Some (map (blockUpdate b) (updateReceiveStatus b (seen t))))
             (fun _ _ _ => Some None)
             (fun t b limit => messageProof (seen t) b limit)
             (fun t q => heightForSeq (seen t) q)
             (fun _ l => Some (buildBridgeMessage (map bridgeItem l))).

(** How the list shrinks while the link asks for block updates again and again (link.go 246-256): number of calls and list. *)
Fixpoint shortened (f : nat) (b : bls) (l : list A) : nat * list A :=
  match f with
  | O => (O, l)
  | S f' =>
      match updateReceiveStatus b l with
      | [] => let (n, l2) := shortened f' b [] in (S n, l2)
      | l1 => (1%nat, l1)
      end
  end.
Fixpoint times (n : nat) (b : bls) (l : list A) : list A := match n with O => l | S n' => times n' b (updateReceiveStatus b l) end.
(** The list at each call while the link handles one block, and at the end (as in M_Btp2.v) *)
Definition lists (k : lk) (l : list A) : (nat -> list A) * list A :=
  let o := if l_once k then ROk (l_st k) else ignore (checkStatus (recv (fun _ => l)) TxSizeLimit limitSize rand fuel (l_ptr k) (l_st k)) in
  match o with
  | ROk s =>
      let b := getb s (l_ptr k) in
      let (n, l') := shortened fuel b l in
      (fun t => if (t <? clk s)%nat then l else times (Nat.min (t - clk s) n) b l, l')
  | _ => (fun _ => l, l)
  end.

(** [b_follows]: the chain is followed; [b_waiting]: the receiver waits to hand over this block; [b_taken]: the link has taken it. *)
Record bst := mkB { b_follows : bool; b_link : lk; b_rss : list A; b_count : Z; b_waiting : option rstat; b_taken : option rstat }.
Inductive bevent := Fetch (n : note) | Take | Build | Told (b : option bls).

Definition crashed (k : lk) : lk := mkLk (l_st k) (l_ptr k) (l_once k) (l_mtx k) (l_sender k) Crashed.
(** bridge.go 234-261, ethbr/receiver.go 210-265: an error is written to the log only *)
Definition fetch (y : bst) (n : note) : bst :=
  if negb (b_follows y) || dead (b_link y) then y else
  match b_waiting y with
  | Some _ => y
  | None =>
      match arrive n (getb (l_st (b_link y)) (l_ptr (b_link y))) (b_count y) with
      | Ok (Some (c, r)) => mkB (b_follows y) (b_link y) (b_rss y ++ [r]) c (Some (mkRstat (hgt r) (sq r))) (b_taken y)
      | Ok None => y
      | Err _ => y
      | Panic => mkB (b_follows y) (crashed (b_link y)) (b_rss y) (b_count y) (b_waiting y) (b_taken y)
      end
  end.
(** link.go 132 with bridge.go 258, ethbr/receiver.go 258 *)
Definition take (y : bst) : bst :=
  match b_taken y, b_waiting y with
  | None, Some r => mkB (b_follows y) (b_link y) (b_rss y) (b_count y) None (Some r)
  | _, _ => y
  end.
(** link.go 133-138 *)
Definition build (y : bst) : bst :=
  match b_taken y with
  | None => y
  | Some r =>
      match dead (b_link y), l_receiver (b_link y) with
      | false, Running =>
          let (seen, l') := lists (b_link y) (b_rss y) in
          mkB (b_follows y) (handle (recv seen) TxSizeLimit limitSize rand fuel (b_link y) (Notify r)) l' (b_count y) (b_waiting y) None
      | _, _ => y
      end
  end.
(** link.go 163-165; a nil status crashes the loops over what is kept (as in M_Btp2.v) *)
Definition told (y : bst) (b : option bls) : bst :=
  let k := b_link y in
  let k' := match b with
            | Some b => handle (recv (fun _ => [])) TxSizeLimit limitSize rand fuel k (Status b)
            | None =>
                if dead k then k else
                match l_sender k, rms (l_st k), rss (l_st k) with
                | Running, [], [] => k
                | Running, _, _ => mkLk (l_st k) (l_ptr k) (l_once k) (l_mtx k) Crashed (l_receiver k)
                | _, _, _ => k
                end
            end in
  mkB (b_follows y) k' (b_rss y) (b_count y) (b_waiting y) (b_taken y).
Definition bstep (y : bst) (e : bevent) : bst :=
  match e with Fetch n => fetch y n | Take => take y | Build => build y | Told b => told y b end.
Definition brun (y : bst) (es : list bevent) : bst := fold_left bstep es y.
(** link.go 99-121 *)
Definition bstart (follows : bool) (count : Z) (b : bls) : bst := mkB follows (NewLink b) [] count None None.
End RELAY.
Arguments mkB {A}. Arguments b_follows {A}. Arguments b_link {A}. Arguments b_rss {A}. Arguments b_count {A}. Arguments b_waiting {A}. Arguments b_taken {A}.
Arguments Fetch {note}. Arguments Take {note}. Arguments Build {note}. Arguments Told {note}.

(** * chain/icon/bridge *)
(** A notification: MainHeight and UpdateNumber of the header, and the answer to getBtpMessage (None: an error; a message that is
    None is not base64). *)
Record inote := mkInote { in_height : Z; in_update : Z; in_msgs : option (list (option (list Z))) }.
Fixpoint decoded (l : list (option (list Z))) : option (list (list Z)) :=
  match l with [] => Some [] | Some m :: r => match decoded r with Some ms => Some (m :: ms) | None => None end | None :: _ => None end.
Section ICON.
Variable startHeight offset : Z. (* bridge.go 282-291; the link's offset (227-232, one is added to it) *)
Variable dst : list Z.           (* the address of the destination, Next of every event *)
(** bridge.go 234-261.  A message that is not base64 is only an error if its number is new (bridge.go 50-59); here every one is. *)
Definition i_arrive (n : inote) (b : bls) (count : Z) : result (option (Z * grs)) :=
  if in_height n =? startHeight then Ok None
  else match in_msgs n with
       | None => Err 1
       | Some raw => match decoded raw with
                     | None => Err 1
                     | Some msgs => Ok (Some (count, g_newReceiveStatus (in_height n) (RxSeq b) (offset + 1 + Z.shiftr (in_update n) 1) msgs))
                     end
       end.
Definition event_of (e : evt) : M_Bridge.bevent := BEvent dst (ev_seq e) (ev_msg e).
(** bridge.go 145-172 with message.go 111-155: Index 0, the height of the record *)
Definition i_mproof (l : list grs) (b : bls) (limit : Z) : result (option (Z * list Z)) :=
  rbind (g_BuildMessageProof l b limit) (fun x =>
  Ok match x, g_forSequence l (RxSeq b + 1) with
     | Some (ls, evs), Some rs => Some (ls, icon_payload (BReceipt 0 (map event_of evs) (g_height rs)))
     | _, _ => None
     end).
(** bridge.go 200-202: nothing is followed from a height below one *)
Definition i_start (b : bls) : bst grs := bstart grs (1 <=? Height b) 0 b.
End ICON.

(** * chain/ethbr *)
Section ETH.
Variable enum : list (Z * rp) -> list (Z * rp).
Variable dst : list Z.
(** A notification: height and logs.  ethbr/receiver.go 210-265 *)
Definition e_arrive (n : Z * list elog) (b : bls) (count : Z) : result (option (Z * ers)) :=
  rbind (e_onBlock enum dst (fst n) (snd n) count []) (fun x => Ok match snd x with r :: _ => Some (fst x, r) | [] => None end).
Definition receipt_of (r : rp) : breceipt := BReceipt (rp_index r) (map (event_of dst) (rp_events r)) (rp_height r).
(** ethbr/receiver.go 110-156 with message.go 92-143 *)
Definition e_mproof (l : list ers) (b : bls) (limit : Z) : result (option (Z * list Z)) :=
  rbind (e_BuildMessageProof l b limit) (fun x =>
  match x with
  | None => Ok None
  | Some (ls, rps) => match eth_payload (map receipt_of rps) with Some p => Ok (Some (ls, p)) | None => Err 1 end
  end).
(** ethbr/receiver.go 206-208 *)
Definition e_start (b : bls) : bst ers := bstart ers true (RxSeq b) b.
End ETH.
