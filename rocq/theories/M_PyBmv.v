(** Model of the ICON block verifier of the Python contracts, pyscore/bmv/icon/icon.py and message.py, with the addresses of
    pyscore/lib/btp_address.py.  sha3_256 is the parameter [H]; recover_key with create_address_with_key is [recover]; Address.from_bytes,
    Address.from_string with to_bytes, and str of an address are [from_bytes_], [from_string] and [show]; [utf8] says which bytes are text.
    - [Err c] is the BMVException of code c (bmv/exception.py 18-29), [Panic] any other exception; either reverts the call.
      An exception inside the Patricia tree is [Err 1] throughout.
    - A relay message with a nil marker among the nodes of a proof is refused at once.
    - The properties are read back as they were written (C98_stored, C100_props), so the state is a record.
    - str.strip takes ASCII white space off. *)
From Coq Require Import String Ascii ZArith List Bool.
From Verif Require Import Base GoStr M_PyRlp M_PyMta M_PyMpt.
Import ListNotations.
Open Scope Z_scope.

Local Notation bytes := (list Z).
Definition of_opt {A} (o : option A) : result A := match o with Some a => Ok a | None => Panic end.

(** * btp_address.py *)
Record paddr := PAddr { pa_proto : bytes; pa_net : bytes; pa_contract : bytes }.
(** s.split(sep)[0] and whether there is more *)
Definition before (sep s : bytes) : bytes := match str_index s sep with Some i => firstn i s | None => s end.
Definition behind (sep s : bytes) : option bytes := match str_index s sep with Some i => Some (skipn (i + length sep) s) | None => None end.
(** btp_address.py 23-43: the last dot is at place 0 *)
Definition net_ok (net : bytes) : bool := match net with c :: r => negb ((c =? 46) && negb (existsb (Z.eqb 46) r)) | [] => true end.
(** btp_address.py 114-125 *)
Definition parse_address (s : bytes) : option paddr :=
  match behind (str "://") s with
  | None => None
  | Some r =>
      let r := before (str "://") r in
      let net := before (str "/") r in
      let contract := match behind (str "/") r with Some c => before (str "/") c | None => [] end in
      if net_ok net then Some (PAddr (before (str "://") s) net contract) else None
  end.

(** * message.py *)
Section READ.
Variable H : bytes -> bytes.
Variable utf8 : bytes -> bool.
Variable from_bytes_ : bytes -> option bytes.
Definition opt_bytes (v : pyval) : option bytes := match v with PBytes b => Some b | _ => None end.
(** bytes of at least one: message.py 87-90, 212-216 and others *)
Definition some_bytes (v : pyval) : option bytes := match v with PBytes (x :: b) => Some (x :: b) | _ => None end.

(** message.py 38-64 BlockHeader; height is None for the nil marker *)
Record pheader := PHeader { ph_bytes : bytes; ph_height : option Z; ph_next : option bytes; ph_receipts : option bytes }.
Definition header_ty : ty := TFields [TInt; TInt; TInt; TBytes; TBytes; TBytes; TBytes; TBytes; TBytes; TBytes; TBytes].
Definition read_header (b : bytes) : option pheader :=
  match rlp_decode utf8 b header_ty with
  | Some (PList [_; height; _; _; _; _; next; _; _; _; res]) =>
      let make := fun r => Some (PHeader b (match height with PInt n => Some n | _ => None end) (opt_bytes next) r) in
      match some_bytes res with
      | Some rb => match rlp_decode utf8 rb (TFields [TBytes; TBytes; TBytes]) with Some (PList [_; _; r]) => make (opt_bytes r) | _ => None end
      | None => make None
      end
  | _ => None
  end.
(** message.py 93-102 Validators: what was read from, and the addresses *)
Record pvals := PVals { pv_bytes : bytes; pv_addrs : list bytes }.
Fixpoint addresses (l : list pyval) : option (list bytes) :=
  match l with
  | [] => Some []
  | PBytes b :: r => match from_bytes_ b, addresses r with Some a, Some l => Some (a :: l) | _, _ => None end
  | _ => None
  end.
Definition read_validators (b : bytes) : option pvals :=
  match rlp_decode utf8 b (TOf (Some TBytes)) with
  | Some (PList l) => match addresses l with Some a => Some (PVals b a) | None => None end
  | _ => None
  end.
(** message.py 151-178 Votes *)
Record pvotes := PVotes { pt_round : pyval; pt_part : pyval; pt_items : list (pyval * pyval) }.
Fixpoint vote_items (l : list pyval) : option (list (pyval * pyval)) :=
  match l with
  | [] => Some []
  | PList [t; s] :: r => match vote_items r with Some x => Some ((t, s) :: x) | None => None end
  | _ => None
  end.
Definition read_votes (b : bytes) : option pvotes :=
  match rlp_decode utf8 b (TFields [TInt; TFields [TInt; TBytes]; TOf (Some (TFields [TInt; TBytes]))]) with
  | Some (PList [r; p; PList items]) => match vote_items items with Some x => Some (PVotes r p x) | None => None end
  | _ => None
  end.
(** An optional part that is read when it is there: the outer option is an exception *)
Definition when {A} (read : bytes -> option A) (v : option bytes) : option (option A) :=
  match v with Some b => match read b with Some a => Some (Some a) | None => None end | None => Some None end.
(** message.py 219-228 BlockUpdate; header and votes may be absent, validators without bytes have no hash *)
Record pupdate := PUpdate { pu_header : option pheader; pu_votes : option pvotes; pu_next : option pvals }.
Definition read_update (b : bytes) : option pupdate :=
  match rlp_decode utf8 b (TFields [TBytes; TBytes; TBytes]) with
  | Some (PList [h; v; n]) =>
      match when read_header (some_bytes h), when read_votes (some_bytes v), when read_validators (opt_bytes n) with
      | Some h, Some v, Some n => Some (PUpdate h v n)
      | _, _, _ => None
      end
  | _ => None
  end.
(** message.py 272-294 BlockWitness, 297-305 BlockProof *)
Record pblockproof := PBlockProof { pb_header : option pheader; pb_height : option Z; pb_witness : list (option bytes) }.
Definition read_blockproof (b : bytes) : option pblockproof :=
  match rlp_decode utf8 b (TFields [TBytes; TFields [TInt; TOf (Some TBytes)]]) with
  | Some (PList [h; PList [height; PList ws]]) =>
      match when read_header (some_bytes h) with
      | Some h => Some (PBlockProof h (match height with PInt n => Some n | _ => None end) (map opt_bytes ws))
      | None => None
      end
  | _ => None
  end.

(** message.py 369-379 EventLog.parse_signature *)
Definition space (c : Z) : bool := (c =? 32) || ((9 <=? c) && (c <=? 13)) || ((28 <=? c) && (c <=? 31)).
Fixpoint lstrip (s : bytes) : bytes := match s with c :: r => if space c then lstrip r else s | [] => [] end.
Definition strip (s : bytes) : bytes := rev (lstrip (rev (lstrip s))).
Fixpoint split_at (c : Z) (s : bytes) : list bytes :=
  match s with
  | [] => [[]]
  | x :: r => if x =? c then [] :: split_at c r else match split_at c r with w :: ws => (x :: w) :: ws | [] => [[x]] end
  end.
Definition parse_signature (v : bytes) : option (bytes * list bytes) :=
  if utf8 v then
    match str_index v (str "("), str_index v (str ")") with
    | Some i, Some j => Some (firstn i v, map strip (split_at 44 (skipn (S i) (firstn j v))))
    | _, _ => None
    end
  else None.
(** message.py 381-394 EventLog.convert_from_bytes; rlp.py 93-96: None stays None *)
Definition raw_part (v : pyval) : option part := match v with PBytes b => Some (BytesPart b) | PNone => Some NullPart | _ => None end.
Definition convert (ts : bytes) (v : pyval) : option pyval :=
  let as_ := fun t => match raw_part v with Some p => from_bytes utf8 p t | None => None end in
  if bytes_eqb ts (str "int") then as_ TInt
  else if bytes_eqb ts (str "str") then as_ TStr
  else if bytes_eqb ts (str "bool") then as_ TBool
  else if bytes_eqb ts (str "bytes") then Some v
  else if bytes_eqb ts (str "Address") then match v with PBytes b => match from_bytes_ b with Some a => Some (PBytes a) | None => None end | _ => None end
  else None.
(** message.py 343-367 EventLog *)
Record pevent := PEvent { pe_addr : pyval; pe_method : bytes; pe_params : list pyval }.
Fixpoint params (ts : list bytes) (indexed data : list pyval) : option (list pyval) :=
  match ts with
  | [] => Some []
  | t :: ts' =>
      let next := match indexed, data with v :: r, _ => Some (v, r, data) | [], v :: r => Some (v, [], r) | [], [] => None end in
      match next with
      | Some (v, i, d) => match convert t v, params ts' i d with Some a, Some l => Some (a :: l) | _, _ => None end
      | None => None
      end
  end.
Definition read_event (b : bytes) : option pevent :=
  match rlp_decode utf8 b (TFields [TBytes; TOf (Some TBytes); TOf (Some TBytes)]) with
  | Some (PList [a; PList (PBytes sig :: indexed); PList data]) =>
      match parse_signature sig with
      | Some (m, ts) => match params ts indexed data with Some l => Some (PEvent a m l) | None => None end
      | None => None
      end
  | _ => None
  end.
(** message.py 419-436 Receipt: event logs in the receipt itself must be readable; the hash of the tree of logs *)
Fixpoint all_read {A} (read : bytes -> option A) (l : list pyval) : option (list A) :=
  match l with
  | [] => Some []
  | PBytes b :: r => match read b, all_read read r with Some a, Some x => Some (a :: x) | _, _ => None end
  | _ => None
  end.
Definition read_receipt (b : bytes) : option (option bytes) :=
  match rlp_decode utf8 b (TFields [TInt; TBytes; TBytes; TBytes; TBytes; TBytes; TList; TBytes; TBytes]) with
  | Some (PList [_; _; _; _; _; _; logs; _; hash]) =>
      match logs with
      | PNone => Some (opt_bytes hash)
      | PList l => match all_read read_event l with Some _ => Some (opt_bytes hash) | None => None end
      | _ => None
      end
  | _ => None
  end.
(** message.py 460-472 EventProof, 486-505 ReceiptProof: key and nodes *)
Record pproof := PProof { pp_key : bytes; pp_nodes : list bytes }.
Definition read_nodes (v : pyval) : option (list bytes) :=
  match v with
  | PBytes b => match rlp_decode utf8 b (TOf (Some TBytes)) with Some (PList l) => all_read Some l | _ => None end
  | _ => None
  end.
Definition read_eventproof (b : bytes) : option pproof :=
  match rlp_decode utf8 b (TFields [TInt; TBytes]) with
  | Some (PList [i; n]) => match read_nodes n with Some l => Some (PProof (rlp_encode i) l) | None => None end
  | _ => None
  end.
Definition read_receiptproof (b : bytes) : option (pproof * list pproof) :=
  match rlp_decode utf8 b (TFields [TInt; TBytes; TList]) with
  | Some (PList [i; n; PList es]) =>
      match read_nodes n, all_read read_eventproof es with Some l, Some x => Some (PProof (rlp_encode i) l, x) | _, _ => None end
  | _ => None
  end.
(** message.py 528-551 RelayMessage *)
Record prelay := PRelay { pr_updates : list pupdate; pr_proof : option pblockproof; pr_receipts : list (pproof * list pproof) }.
Definition read_relay (b : bytes) : option prelay :=
  match rlp_decode utf8 b (TFields [TOf (Some TBytes); TBytes; TOf (Some TBytes)]) with
  | Some (PList [PList us; p; PList rs]) =>
      match all_read read_update us, when read_blockproof (some_bytes p), all_read read_receiptproof rs with
      | Some us, Some p, Some rs => Some (PRelay us p rs)
      | _, _, _ => None
      end
  | _ => None
  end.

(** message.py 446-451, 474-479, 507-514: prove, then read the leaf; a leaf that is None or empty is None, whose use is an exception *)
Definition prove_leaf {A} (read : bytes -> option A) (root : option bytes) (p : pproof) : result A :=
  match root with
  | None => Err 1
  | Some r =>
      match py_prove H r (pp_key p) (pp_nodes p) with
      | None => Err 1
      | Some (Some (x :: d)) => of_opt (read (x :: d))
      | Some _ => Panic
      end
  end.
Fixpoint prove_events (root : option bytes) (l : list pproof) : result (list pevent) :=
  match l with
  | [] => Ok []
  | p :: r => rbind (prove_leaf read_event root p) (fun e => rbind (prove_events root r) (fun es => Ok (e :: es)))
  end.
Definition prove_receipt (root : option bytes) (p : pproof * list pproof) : result (list pevent) :=
  rbind (prove_leaf read_receipt root (fst p)) (fun logs => prove_events logs (snd p)).
End READ.

(** * icon.py *)
Section BMV.
Variable H : bytes -> bytes.
Variable utf8 : bytes -> bool.
Variable recover : bytes -> bytes -> option bytes.
Variable from_bytes_ : bytes -> option bytes.
Variable from_string : bytes -> option bytes.
Variable show : bytes -> bytes.
Record pprops := PProps { q_bmc : bytes; q_net : bytes; q_last : Z; q_vals : pvals; q_mta : pymta }.

(** message.py 124-139 Validators.from_string; the empty string gives None *)
Definition validators_from_string (s : bytes) : option pvals :=
  let ts := split_at 44 s in
  match all_read Some (map (fun a => match from_string a with Some b => PBytes b | None => PNone end) ts) with
  | Some l => read_validators utf8 from_bytes_ (rlp_encode (PList (map PBytes l)))
  | None => match ts with [_] => match urlsafe_b64decode s with Some b => read_validators utf8 from_bytes_ b | None => None end | _ => None end
  end.
(** icon.py 71-82 on_install *)
Definition on_install (bmc net vals : bytes) (offset : Z) : option pprops :=
  match vals with
  | [] => None
  | _ => match validators_from_string vals with Some v => Some (PProps bmc net offset v (set_offset py_new offset)) | None => None end
  end.

(** message.py 184-210 Votes.verify: the message a vote signs *)
Definition vote_message (height : Z) (block : bytes) (vs : pvotes) (time : pyval) : bytes :=
  rlp_encode (PList [PInt height; pt_round vs; PInt 1; PBytes block; pt_part vs; time]).
Fixpoint count_votes (height : Z) (block : bytes) (vs : pvotes) (addrs : list bytes) (items : list (pyval * pyval)) (seen : list bytes) : result (list bytes) :=
  match items with
  | [] => Ok seen
  | (t, s) :: r =>
      rbind (of_opt (match s with PBytes sig => recover (H (vote_message height block vs t)) sig | _ => None end)) (fun a =>
      if negb (existsb (bytes_eqb a) addrs) then Err 2
      else if existsb (bytes_eqb a) seen then Err 2
      else count_votes height block vs addrs r (seen ++ [a]))
  end.
(** the division is exact enough: n <= 2 * l / 3 in floating point is 3 * n <= 2 * l *)
Definition verify_votes (height : Z) (block : bytes) (vs : pvotes) (vals : pvals) : result unit :=
  rbind (count_votes height block vs (pv_addrs vals) (pt_items vs) []) (fun seen =>
  if 3 * zlen seen <=? 2 * zlen (pv_addrs vals) then Err 2 else Ok tt).
(** message.py 250-269 BlockUpdate.verify: the validators afterwards *)
Definition verify_update (u : pupdate) (h : pheader) (height : Z) (vals : pvals) : result pvals :=
  match pu_votes u with
  | None => Err 4
  | Some vs =>
      rbind (verify_votes height (H (ph_bytes h)) vs vals) (fun _ =>
      if match ph_next h with Some n => bytes_eqb n (H (pv_bytes vals)) | None => false end then Ok vals
      else match pu_next u with
           | None => Panic
           | Some nv => if match ph_next h with Some n => bytes_eqb (H (pv_bytes nv)) n | None => false end then Ok nv else Err 4
           end)
  end.
(** icon.py 98-112: one turn of the loop; accumulator and validators *)
Definition block_update (s : pymta * pvals) (u : pupdate) : result (pymta * pvals) :=
  rbind (of_opt (pu_header u)) (fun h =>
  rbind (of_opt (ph_height h)) (fun height =>
  if y_height (fst s) + 1 =? height then
    rbind (verify_update u h height (snd s)) (fun v =>
    rbind (of_opt (y_add H (fst s) (H (ph_bytes h)))) (fun m => Ok (m, v)))
  else if y_height (fst s) + 1 <? height then Err 8 else Err 9)).
Fixpoint block_updates (s : pymta * pvals) (us : list pupdate) : result (pymta * pvals) :=
  match us with [] => Ok s | u :: r => rbind (block_update s u) (fun s' => block_updates s' r) end.
(** message.py 323-330 BlockProof.verify, 281-287 BlockWitness.verify *)
Definition verify_proof (m : pymta) (p : pblockproof) : result pheader :=
  rbind (of_opt (pb_header p)) (fun h =>
  rbind (of_opt (ph_height h)) (fun height =>
  if y_height m <? height then Err 10
  else rbind (of_opt (pb_height p)) (fun at_ =>
       match y_verify H m (pb_witness p) (H (ph_bytes h)) height at_ with
       | Ok _ => Ok h
       | Err e => Err (if e =? 3 then 11 else 6)
       | Panic => Panic
       end))).
(** icon.py 95-121 _last_receipt_hash: the header whose receipts are looked at *)
Definition last_header (s : pymta * pvals) (rm : prelay) : result (pymta * pvals * option pheader) :=
  rbind (block_updates s (pr_updates rm)) (fun s' =>
  match pr_proof rm with
  | Some p => rbind (verify_proof (fst s') p) (fun h => Ok (s', Some h))
  | None => Ok (s', match rev (pr_updates rm) with u :: _ => pu_header u | [] => None end)
  end).
(** icon.py 188-203 the loop over event logs *)
Fixpoint take_events (contract bmc : bytes) (es : list pevent) (seq : Z) (msgs : list pyval) : result (Z * list pyval) :=
  match es with
  | [] => Ok (seq, msgs)
  | e :: r =>
      rbind (of_opt (match pe_addr e with PBytes b => from_bytes_ b | _ => None end)) (fun a =>
      if negb (bytes_eqb (show a) contract) then take_events contract bmc r seq msgs
      else if negb (bytes_eqb (pe_method e) (str "Message")) then take_events contract bmc r seq msgs
      else match pe_params e with
           | next :: n :: m :: _ =>
               rbind (of_opt (match n with PInt n => Some n | PBool b => Some (if b then 1 else 0) | _ => None end)) (fun n =>
               if seq <? n then Err 7
               else if n <? seq then Err 3
               else if match next with PStr s => bytes_eqb s bmc | _ => false end then take_events contract bmc r (seq + 1) (msgs ++ [m])
               else take_events contract bmc r seq msgs)
           | _ => Panic
           end)
  end.
Fixpoint take_receipts (root : option bytes) (contract bmc : bytes) (ps : list (pproof * list pproof)) (seq : Z) (msgs : list pyval) : result (Z * list pyval) :=
  match ps with
  | [] => Ok (seq, msgs)
  | p :: r =>
      rbind (prove_receipt H utf8 from_bytes_ root p) (fun es =>
      rbind (take_events contract bmc es seq msgs) (fun x => take_receipts root contract bmc r (fst x) (snd x)))
  end.
(** icon.py 87-93 _check_accessible *)
Definition check_accessible (p : pprops) (caller : bytes) (cur from : paddr) : result unit :=
  if negb (bytes_eqb (q_net p) (pa_net from)) then Err 0
  else if negb (bytes_eqb caller (q_bmc p)) then Err 0
  else rbind (of_opt (from_string (pa_contract cur))) (fun a => if negb (bytes_eqb a (q_bmc p)) then Err 0 else Ok tt).
(** icon.py 162-210 handleRelayMessage *)
Definition handle_relay (p : pprops) (caller bmc prev : bytes) (seq : Z) (msg : bytes) : result (pprops * list pyval) :=
  rbind (of_opt (parse_address bmc)) (fun cur =>
  rbind (of_opt (parse_address prev)) (fun from =>
  rbind (check_accessible p caller cur from) (fun _ =>
  rbind (of_opt (urlsafe_b64decode msg)) (fun b =>
  rbind (of_opt (read_relay utf8 from_bytes_ b)) (fun rm =>
  if match pr_updates rm, pr_proof rm with [], None => true | _, _ => false end then Err 0
  else
    rbind (last_header (q_mta p, q_vals p) rm) (fun x =>
    rbind (take_receipts (match snd x with Some h => ph_receipts h | None => None end) (pa_contract from) bmc (pr_receipts rm) (seq + 1) []) (fun y =>
    let last := match snd y, snd x with _ :: _, Some h => match ph_height h with Some n => n | None => q_last p end | _, _ => q_last p end in
    Ok (PProps (q_bmc p) (q_net p) last (snd (fst x)) (fst (fst x)), snd y)))))))).
End BMV.
