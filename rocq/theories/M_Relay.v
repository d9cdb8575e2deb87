(** Model of the relay program: the key stores of cmd/relay/main.go, the links of cmd/relay/linkfatory.go, and how errors
    get from a link to the program (common/link/link.go 99-174 and linkfatory.go 74-98).
    Loggers and BaseDir, which nothing uses, are left out. *)
From Coq Require Import String Ascii ZArith List Bool.
From Verif Require Import Base GoStr M_Address.
Import ListNotations.
Open Scope Z_scope.

(** * Key stores *)
Section Keys.
Context {K D : Type}. (* keys; key store documents *)
Variable encrypt : K -> list Z -> option D. (* wallet.EncryptKeyAsKeyStore *)
Variable decrypt : D -> list Z -> option K. (* wallet.DecryptKeyStore *)
Variable readFile : list Z -> option (list Z).

(** the parts of chain.BaseConfig (chain/config.go 26-34) about keys; no document: no bytes *)
Record kcfg := mkK { k_doc : option D; k_pass : list Z; k_secret : list Z }.
(** main.go 71-81 *)
Definition resolvePassword (secret pass : list Z) : option (list Z) := match secret with [] => Some pass | _ => readFile secret end.
(** main.go 63-69 *)
Definition openWallet (c : kcfg) : option K :=
  match resolvePassword (k_secret c) (k_pass c), k_doc c with
  | Some pw, Some d => decrypt d pw
  | _, _ => None
  end.
(** main.go 89-100 and 102-113, the same text for both sides; [fresh] is what GenerateKeyPair gives *)
Definition ensure (c : kcfg) (pw : list Z) (fresh : K) : option kcfg :=
  match k_doc c with
  | None => match encrypt fresh pw with Some d => Some (mkK (Some d) (k_pass c) (k_secret c)) | None => None end
  | Some d => match decrypt d pw with Some _ => Some c | None => None end
  end.
(** main.go 83-116: only the second error is looked at; ReadFile gives no bytes if it fails *)
Definition EnsureWallet (src dst : kcfg) (freshSrc freshDst : K) : option (kcfg * kcfg) :=
  let srcPw := match resolvePassword (k_secret src) (k_pass src) with Some pw => pw | None => [] end in
  match resolvePassword (k_secret dst) (k_pass dst) with
  | None => None
  | Some dstPw =>
      match ensure src srcPw freshSrc with
      | None => None
      | Some src' => match ensure dst dstPw freshDst with Some dst' => Some (src', dst') | None => None end
      end
  end.
(** main.go 219-227: what the save command writes *)
Definition saveKeys (src dst : kcfg) (freshSrc freshDst : K) : option (kcfg * kcfg) :=
  match EnsureWallet src dst freshSrc freshDst with
  | Some (s, d) => Some (mkK (k_doc s) [] (k_secret s), mkK (k_doc d) [] (k_secret d))
  | None => None
  end.
(** main.go 241-251, 256: the key store files written beside; [opts]: the options of the command by name.  Of the names
    asked for none is defined; GetString gives the empty text for a name that is not. *)
Definition defined_save_flags : list (list Z) := [str "save_key_store"].
Definition getString (opts : list Z -> list Z) (name : list Z) : list Z :=
  if existsb (bytes_eqb name) defined_save_flags then opts name else [].
Definition key_store_files (opts : list Z -> list Z) (src dst : kcfg) : list (list Z * option D) :=
  let one name c := match getString opts name with [] => [] | f => [(f, k_doc c)] end in
  one (str "save_src_key_store") src ++ one (str "save_dst_key_store") dst.
End Keys.
Arguments kcfg : clear implicits.

(** * Links *)
Section Links.
Context {W O : Type}. (* wallets; options *)
(** chain/config.go 26-34 *)
Record bcfg := mkB { b_addr : list Z; b_endpoint : list Z; b_bridge : bool; b_opts : option O }.
(** what a receiver and a sender are made with *)
Inductive rkind := RBtp2 | RBridge | REth.
Record receiver := mkR { r_kind : rkind; r_src : list Z; r_dst : list Z; r_endpoint : list Z }.
Inductive skind := SIcon | SEth.
Record sender := mkS { s_kind : skind; s_src : list Z; s_dst : list Z; s_wallet : W; s_endpoint : list Z; s_opts : option O }.
(** main.go 44-53 *)
Definition chain_is (c : list Z) (name : string) : bool := bytes_eqb c (str name).
(** linkfatory.go 101-120; None: Fatalf, which ends the program *)
Definition newReceiver (s : list Z) (src dst : bcfg) : option receiver :=
  if chain_is s "icon" then Some (mkR (if b_bridge src then RBridge else RBtp2) (b_addr src) (b_addr dst) (b_endpoint src))
  else if chain_is s "eth" || chain_is s "hardhat" then Some (mkR REth (b_addr src) (b_addr dst) (b_endpoint src))
  else None.
(** linkfatory.go 122-138 *)
Definition newSender (s : list Z) (src dst : bcfg) (w : W) : option sender :=
  if chain_is s "icon" then Some (mkS SIcon (b_addr src) (b_addr dst) w (b_endpoint dst) (b_opts src))
  else if chain_is s "eth" || chain_is s "hardhat" then Some (mkS SEth (b_addr src) (b_addr dst) w (b_endpoint dst) None)
  else None.
(** a link: the receiver, and what its goroutine does first: make the sender (None: the program ends there) *)
Definition link := (receiver * option sender)%type.
(** linkfatory.go 85-99 *)
Definition newLink (s : list Z) (src dst : bcfg) (w : W) : option link :=
  match newReceiver s src dst with Some r => Some (r, newSender (Btp_BlockChain (b_addr dst)) src dst w) | None => None end.
(** linkfatory.go 18-72: the links that are started before NewLink waits, or how it ends before *)
Inductive started := BadDirection | FatalAfter (l : list link) | Waits (l : list link).
Definition NewLink (direction : list Z) (src dst : bcfg) (srcWallet dstWallet : W) : started :=
  if bytes_eqb direction (str "front") then
    match newLink (Btp_BlockChain (b_addr src)) src dst dstWallet with Some l => Waits [l] | None => FatalAfter [] end
  else if bytes_eqb direction (str "reverse") then
    match newLink (Btp_BlockChain (b_addr dst)) dst src srcWallet with Some l => Waits [l] | None => FatalAfter [] end
  else if bytes_eqb direction (str "both") then
    match newLink (Btp_BlockChain (b_addr src)) src dst dstWallet with
    | None => FatalAfter []
    | Some l => match newLink (Btp_BlockChain (b_addr dst)) dst src srcWallet with Some l' => Waits [l; l'] | None => FatalAfter [l] end
    end
  else BadDirection.
End Links.
Arguments bcfg : clear implicits.

(** * Errors on their way to the program *)
(** An error is a number, None is nil.
    Link.Start (link.go 99-120): asking for the status, waiting for errors of the sender's goroutine, having returned and
    offering the error to the program (linkfatory.go 92-97), at its end. *)
Inductive lstate := LAsk | LWait | LOffer (e : option Z) | LEnd.
(** the goroutine of senderChannel (149-174): waiting for results, or blocked on handing over an error (159-160).  An
    error of the sender's own Start (152) is never looked at. *)
Inductive sstate := SWait | SHand (e : option Z).
(** the goroutine of receiverChannel (127-147): not there yet, reading, or without channel after an error of Start, which
    blocks for ever; the error is never looked at *)
Inductive rstate := RNot | RReads | RBlocked.
Record lthread := mkL { t_link : lstate; t_send : sstate; t_recv : rstate }.
(** linkfatory.go 18-82: links still to be started; waiting; having received an error; returned *)
Inductive mstate := MStarts (n : nat) | MWaits | MGot (e : option Z) | MReturned (e : Z).
(** what happened, for the statements *)
Inductive note := Failed (i : nat) (e : Z) | NoReceiver (i : nat) (e : Z) | Lost (i : nat) (e : Z).
Record prog := mkP { g_main : mstate; g_links : list lthread; g_notes : list note }.
Definition p_start (n : nat) : prog := mkP (MStarts n) [] [].
Definition note_err (i : nat) (e : option Z) : list note := match e with Some x => [Failed i x] | None => [] end.
Fixpoint upd {A} (l : list A) (i : nat) (a : A) : list A :=
  match l, i with [], _ => [] | _ :: r, O => a :: r | x :: r, S i => x :: upd r i a end.

Inductive step : prog -> prog -> Prop :=
(** newLink: the goroutines of the link are there; Start begins *)
| S_start : forall n ls h, step (mkP (MStarts (S n)) ls h) (mkP (MStarts n) (ls ++ [mkL LAsk SWait RNot]) h)
| S_wait : forall ls h, step (mkP (MStarts O) ls h) (mkP MWaits ls h)
(** GetStatus fails, or not; then the receiver is started, which fails, or not *)
| S_status_fails : forall m ls h i s r e, nth_error ls i = Some (mkL LAsk s r) ->
    step (mkP m ls h) (mkP m (upd ls i (mkL (LOffer (Some e)) s r)) (h ++ [Failed i e]))
| S_status : forall m ls h i s r, nth_error ls i = Some (mkL LAsk s r) ->
    step (mkP m ls h) (mkP m (upd ls i (mkL LWait s RReads)) h)
| S_receiver_fails : forall m ls h i s r e, nth_error ls i = Some (mkL LAsk s r) ->
    step (mkP m ls h) (mkP m (upd ls i (mkL LWait s RBlocked)) (h ++ [NoReceiver i e]))
(** a relay result is worked on, with this outcome *)
| S_result : forall m ls h i l r e, nth_error ls i = Some (mkL l SWait r) ->
    step (mkP m ls h) (mkP m (upd ls i (mkL l (SHand e) r)) (h ++ note_err i e))
(** Start takes it *)
| S_taken : forall m ls h i r e, nth_error ls i = Some (mkL LWait (SHand e) r) ->
    step (mkP m ls h) (mkP m (upd ls i (mkL (match e with Some _ => LOffer e | None => LWait end) SWait r)) h)
(** the error is offered to the program without waiting *)
| S_offer_taken : forall ls h i s r e, nth_error ls i = Some (mkL (LOffer e) s r) ->
    step (mkP MWaits ls h) (mkP (MGot e) (upd ls i (mkL LEnd s r)) h)
| S_offer_dropped : forall m ls h i s r e, m <> MWaits -> nth_error ls i = Some (mkL (LOffer e) s r) ->
    step (mkP m ls h) (mkP m (upd ls i (mkL LEnd s r)) (h ++ match e with Some x => [Lost i x] | None => [] end))
| S_returns : forall ls h e, step (mkP (MGot (Some e)) ls h) (mkP (MReturned e) ls h)
| S_again : forall ls h, step (mkP (MGot None) ls h) (mkP MWaits ls h).
Inductive runs (n : nat) : prog -> Prop :=
| R_start : runs n (p_start n)
| R_step : forall p q, runs n p -> step p q -> runs n q.
