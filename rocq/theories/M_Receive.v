(** Model of the three receivers: chain/icon/btp2/btp2.go, chain/icon/bridge/bridge.go, chain/ethbr/receiver.go
    (with ethbr/message.go), and of the block monitor of chain/ethbr/client/client.go.
    Sequence numbers and heights are int64 in the code; here they are unbounded (they stay far below 2^63).
    Fetching messages, headers and logs is a parameter. *)
From Coq Require Import ZArith List Bool.
From Verif Require Import Base GoSort M_Mbt M_Link.
Import ListNotations.
Open Scope Z_scope.

(** * btp2 *)
(** btp2.go 20-34 *)
Record brs := mkBrs { b_height : Z; b_seq : Z; b_tree : mbt }.
(** btp2.go 316-323; the condition is an equality *)
Fixpoint b_forSequence (l : list brs) (seq : Z) : option brs :=
  match l with [] => None | r :: l' => if (seq <=? b_seq r) && (b_seq r <=? seq) then Some r else b_forSequence l' seq end.
(** btp2.go 325-332 *)
Fixpoint b_forHeight (l : list brs) (h : Z) : option brs :=
  match l with [] => None | r :: l' => if b_height r =? h then Some r else b_forHeight l' h end.
(** btp2.go 152-159 *)
Definition b_GetHeightForSeq (l : list brs) (seq : Z) : Z := match b_forSequence l seq with Some r => b_height r | None => 0 end.
(** btp2.go 36-57 and 296-311: one notification; [seq] counts the messages *)
Definition b_notify (H : list Z -> list Z) (startHeight height : Z) (msgs : list (list Z)) (seq : Z) (l : list brs) : result (Z * list brs) :=
  if height =? startHeight then Ok (seq, l)
  else rbind (NewMerkleBinaryTree H (map Some msgs)) (fun t => let seq' := seq + zlen msgs in Ok (seq', l ++ [mkBrs height seq' t])).

(** btp2.go 203-213; [plen] is the length of the RLP encoding of the proof *)
Fixpoint b_proof_loop (plen : mbt_proof -> Z) (fuel : nat) (t : mbt) (rx offset cnt limit i : Z) : result (option (Z * mbt_proof)) :=
  match fuel with
  | O => Ok None
  | S f =>
      if i <? cnt then
        rbind (mbt_Proof t (offset + 1) i) (fun p =>
        if limit <? plen p then Ok (Some (rx + i, p)) else b_proof_loop plen f t rx offset cnt limit (i + 1))
      else Ok None
  end.
(** btp2.go 191-222: announced last sequence and proof *)
Definition b_BuildMessageProof (plen : mbt_proof -> Z) (l : list brs) (b : bls) (limit : Z) : result (option (Z * mbt_proof)) :=
  match b_forHeight l (Height b) with
  | None => Ok None
  | Some rs =>
      let cnt := mbt_Len (b_tree rs) in
      let offset := RxSeq b - (b_seq rs - cnt) in
      if RxSeq b - b_seq rs =? 0 then Ok None
      else
        rbind (if 0 <? cnt then b_proof_loop plen (Z.to_nat (cnt - offset)) (b_tree rs) (RxSeq b) offset cnt limit (offset + 1) else Ok None) (fun r =>
        match r with
        | Some x => Ok (Some x)
        | None => rbind (mbt_Proof (b_tree rs) (offset + 1) cnt) (fun p => Ok (Some (RxSeq b + cnt, p)))
        end)
  end.

(** * bridge *)
(** bridge/message.go: an event of the destination, with its sequence number and message *)
Record evt := mkEvt { ev_seq : Z; ev_msg : list Z }.
Record grs := mkGrs { g_height : Z; g_seq : Z; g_events : list evt }.
(** bridge.go 50-59 *)
Fixpoint g_events_loop (rxSeq sn : Z) (msgs : list (list Z)) : list evt :=
  match msgs with
  | [] => []
  | m :: r => if rxSeq <? sn then mkEvt sn m :: g_events_loop rxSeq (sn + 1) r else g_events_loop rxSeq (sn + 1) r
  end.
(** bridge.go 47-72: the sequence of the record is that of the first message *)
Definition g_newReceiveStatus (height rxSeq sn : Z) (msgs : list (list Z)) : grs := mkGrs height sn (g_events_loop rxSeq sn msgs).
(** bridge.go 273-280 *)
Fixpoint g_forSequence (l : list grs) (seq : Z) : option grs :=
  match l with [] => None | r :: l' => if (seq <=? g_seq r) && (g_seq r <=? seq) then Some r else g_forSequence l' seq end.
(** bridge.go 293-295, ethbr/receiver.go 357-359: the size of a pointer *)
Definition sizeOfEvent (e : evt) : Z := 8.
(** l[i] *)
Definition at_ {A} (l : list A) (i : Z) : result A := if i <? 0 then Panic else match nth_error l (Z.to_nat i) with Some x => Ok x | None => Panic end.
(** bridge.go 160-170 *)
Fixpoint g_proof_loop (fuel : nat) (evs : list evt) (rx limit i rmSize : Z) (acc : list evt) : result (Z * list evt) :=
  match fuel with
  | O => Ok (rx + zlen evs, acc)
  | S f =>
      if i <? zlen evs then
        rbind (at_ evs i) (fun e =>
        if limit <? rmSize + sizeOfEvent e then Ok (rx + i, acc)
        else g_proof_loop f evs rx limit (i + 1) (rmSize + sizeOfEvent e) (acc ++ [e]))
      else Ok (rx + zlen evs, acc)
  end.
(** bridge.go 145-172: announced last sequence and events *)
Definition g_BuildMessageProof (l : list grs) (b : bls) (limit : Z) : result (option (Z * list evt)) :=
  match g_forSequence l (RxSeq b + 1) with
  | None => Ok None
  | Some rs =>
      let cnt := zlen (g_events rs) in
      let offset := RxSeq b - (g_seq rs - cnt) in
      rbind (g_proof_loop (Z.to_nat (cnt - offset)) (g_events rs) (RxSeq b) limit offset 0 []) (fun x => Ok (Some x))
  end.

(** * ethbr *)
(** ethbr/client: ReceiptProof *)
Record rp := mkRp { rp_index : Z; rp_height : Z; rp_events : list evt }.
Record ers := mkErs { e_height : Z; e_seq : Z; e_rps : list rp }.
Fixpoint e_forSequence (l : list ers) (seq : Z) : option ers :=
  match l with [] => None | r :: l' => if (seq <=? e_seq r) && (e_seq r <=? seq) then Some r else e_forSequence l' seq end.
(** receiver.go 131-140: Some is the early return; None hands back events, seq and rmSize *)
Fixpoint e_events_loop (limit : Z) (evs : list evt) (acc : list evt) (seq rmSize : Z) : bool * list evt * Z * Z :=
  match evs with
  | [] => (false, acc, seq, rmSize)
  | e :: r =>
      if (limit <? rmSize + sizeOfEvent e) && (0 <? rmSize) then (true, acc, seq, rmSize)
      else e_events_loop limit r (acc ++ [e]) (seq + 1) (rmSize + sizeOfEvent e)
  end.
(** receiver.go 123-153 *)
Fixpoint e_proof_loop (fuel : nat) (src : list rp) (rx limit i seq rmSize : Z) (rps : list rp) : result (Z * list rp) :=
  match fuel with
  | O => Ok (rx + seq, rps)
  | S f =>
      if i <? zlen src then
        rbind (at_ src i) (fun r =>
        match e_events_loop limit (rp_events r) [] seq rmSize with
        | (full, evs, seq', rmSize') =>
            let rps' := rps ++ [mkRp (rp_index r) (rp_height r) evs] in
            if full then Ok (rx + i, rps')
            else if limit <? rmSize' then Ok (rx + i, rps')
            else e_proof_loop f src rx limit (i + 1) seq' rmSize' (match evs with [] => rps | _ => rps' end)
        end)
      else Ok (rx + seq, rps)
  end.
(** receiver.go 110-156; line 115 reads rs before it is compared with nil.  NewMessageProof (message.go 108-111) skips receipts without events. *)
Definition e_BuildMessageProof (l : list ers) (b : bls) (limit : Z) : result (option (Z * list rp)) :=
  match e_forSequence l (RxSeq b + 1) with
  | None => Panic
  | Some rs =>
      let cnt := zlen (e_rps rs) in
      let offset := RxSeq b - (e_seq rs - cnt) in
      if 0 <? cnt then
        rbind (e_proof_loop (Z.to_nat (cnt - offset)) (e_rps rs) (RxSeq b) limit offset 0 0 []) (fun x =>
        Ok (Some (fst x, filter (fun r => match rp_events r with [] => false | _ => true end) (snd x))))
      else Ok None
  end.

(** An EVM log: transaction index, block number, and the event unpacked from its data (None: the data do not unpack). *)
Record elog := mkElog { lg_tx : Z; lg_block : Z; lg_event : option (Z * list Z * list Z) }. (* sequence (big integer), next, message *)
(** rpsMap[el.TxIndex], a map from transaction indices to receipts, as an association list *)
Fixpoint map_add (tx block : Z) (e : evt) (m : list (Z * rp)) : list (Z * rp) :=
  match m with
  | [] => [(tx, mkRp tx block [e])]
  | (t, r) :: m' => if t =? tx then (t, mkRp (rp_index r) (rp_height r) (rp_events r ++ [e])) :: m' else (t, r) :: map_add tx block e m'
  end.
(** receiver.go 214-239; line 218 reads the event before the error is looked at *)
Fixpoint e_collect (dst : list Z) (seq : Z) (logs : list elog) (m : list (Z * rp)) : result (list (Z * rp)) :=
  match logs with
  | [] => Ok m
  | g :: r =>
      match lg_event g with
      | None => Panic
      | Some (sq, next, msg) =>
          if i64 sq <=? seq then e_collect dst seq r m
          else if negb (bytes_eqb next dst) then e_collect dst seq r m
          else e_collect dst seq r (map_add (lg_tx g) (lg_block g) (mkEvt sq msg) m)
      end
  end.
Definition rp_ltb (a b : rp) : bool := rp_index a <? rp_index b.
(** receiver.go 211-263.  [enum] is the order in which the map is ranged over. *)
Definition e_onBlock (enum : list (Z * rp) -> list (Z * rp)) (dst : list Z) (height : Z) (logs : list elog) (seq : Z) (l : list ers) : result (Z * list ers) :=
  rbind (e_collect dst seq logs []) (fun m =>
  match m with
  | [] => Ok (seq, l)
  | _ =>
      let rps := sort_by rp_ltb (map snd (enum m)) in
      rbind (at_ rps (zlen rps - 1)) (fun r => rbind (at_ (rp_events r) (zlen (rp_events r) - 1)) (fun e =>
      Ok (i64 (ev_seq e), l ++ [mkErs height (i64 (ev_seq e)) rps])))
  end).

(** * Block monitor: ethbr/client/client.go 248-284 and 207-246 *)
(** The callback of Monitor: [hdr h] is the number of the header the node returns for h (None: error), [ok] whether
    onBlockHeader succeeds.  Result: heights delivered and whether monitoring goes on. *)
Fixpoint catchup (hdr : Z -> option Z) (ok : Z -> bool) (fuel : nat) (h target : Z) (acc : list Z) : list Z * bool :=
  match fuel with
  | O => (acc, true)
  | S f =>
      if h <? target then
        match hdr h with
        | None => (acc, false)
        | Some n => if ok n then catchup hdr ok f (h + 1) target (acc ++ [n]) else (acc ++ [n], false)
        end
      else (acc, true)
  end.
(** client.go 270-283; [first] is h == nil *)
Definition on_head (hdr : Z -> option Z) (ok : Z -> bool) (requested : Z) (first : bool) (head : Z) (acc : list Z) : list Z * bool :=
  let (acc1, go) := if first then catchup hdr ok (Z.to_nat (head - requested)) requested head acc else (acc, true) in
  if go then (acc1 ++ [head], ok head) else (acc1, false).
(** client.go 286-314: heads as the subscription delivers them *)
Fixpoint monitor_heads (hdr : Z -> option Z) (ok : Z -> bool) (requested : Z) (first : bool) (heads : list Z) (acc : list Z) : list Z * bool :=
  match heads with
  | [] => (acc, true)
  | n :: r => let (acc', go) := on_head hdr ok requested first n acc in if go then monitor_heads hdr ok requested false r acc' else (acc', false)
  end.
(** client.go 213-245: [ready t h] is the t-th answer for the header at h (None: not found or failure) *)
Fixpoint poll (ready : nat -> Z -> option Z) (hdr : Z -> option Z) (ok : Z -> bool) (retryLimit : nat) (requested : Z) (steps : nat) (t : nat) (retry : nat) (first : bool) (current : Z) (acc : list Z) : list Z * bool :=
  match steps with
  | O => (acc, true)
  | S s =>
      match retry with
      | O => (acc, false)
      | S retry' =>
          match ready t current with
          | None => poll ready hdr ok retryLimit requested s (S t) retry' first current acc
          | Some n =>
              let (acc', go) := on_head hdr ok requested first n acc in
              if go then poll ready hdr ok retryLimit requested s (S t) retryLimit false (current + 1) acc' else (acc', false)
          end
      end
  end.
