(** Model of the token service of the Python contracts: pyscore/token/token_bsh.py.
    - Addresses and names are texts.  [addr_of] is Address.from_string of iconservice.
    - json and hex are taken to read what they wrote: a stored entry is its value, a message that comes in is what json_loads and int(_, 16)
      make of it ([jmsg]); what cannot be read, or lacks a field, is [JBad] (the code looks for a pending entry before it misses the code of an answer:
      either way it raises).  Fields of other types than the
      contracts send are left out, and so is a code that is false, which counts as one that is not 0.
    - owner stays what it was at the installation.  Logger calls are left out.  The stored dictionaries keep what they are given (C100 says when they do not).
    - sendMessage of the center and transfer of the token may raise: [bmc_ok], [pay_ok].  A call that raises is undone. *)
From Coq Require Import String Ascii ZArith List Bool.
From Verif Require Import Base GoStr M_JMap M_PyBmv M_PyBmc.
Import ListNotations.
Open Scope Z_scope.
Local Notation bytes := (list Z).

(** token_bsh.py 23-29, 32-54: codes with the offset of services (lib/btp_exception.py 25, 46-48) *)
Definition X_BSH (code : Z) (text : string) : exn := XBtp (40 + code) (str text).
(** Messages that come in or go out, lines 61-64, 77-79, 300-322 _create_message.  [JReq]: type req_token_transfer with to, name and value; [JRes]: res_token_transfer with its code; [JOther]: any other type *)
Inductive jmsg := JReq (to name : bytes) (value : Z) | JRes (code : Z) | JOther (type : bytes) | JBad.
(** What the contract does to the outside: lines 328, 207, 86, 90 *)
Inductive tout :=
| TSend (sn : Z) (net : bytes) (m : jmsg) | TPay (token user : bytes) (value : Z)
| TStart (user name : bytes) (sn value : Z) (to : bytes) | TEnd (sn code : Z).
(** An entry of pending: from, to, name, value (lines 338-339, 347-356) *)
Record pend := Pend { q_from : bytes; q_to : bytes; q_name : bytes; q_value : Z }.
Record tstate := TState { t_owner : bytes; t_bmc : bytes; t_sn : Z; t_pending : list (Z * pend); t_addr : list (bytes * bytes); t_names : list bytes;
  t_bal : list ((bytes * bytes) * (Z * Z)); t_out : list tout }.
Definition with_bal (s : tstate) (x : list ((bytes * bytes) * (Z * Z))) : tstate := TState (t_owner s) (t_bmc s) (t_sn s) (t_pending s) (t_addr s) (t_names s) x (t_out s).
Definition with_pending (s : tstate) (sn : Z) (x : list (Z * pend)) : tstate := TState (t_owner s) (t_bmc s) sn x (t_addr s) (t_names s) (t_bal s) (t_out s).
Definition with_tokens (s : tstate) (x : list (bytes * bytes)) (y : list bytes) : tstate := TState (t_owner s) (t_bmc s) (t_sn s) (t_pending s) x y (t_bal s) (t_out s).
Definition tell (s : tstate) (o : tout) : tstate := TState (t_owner s) (t_bmc s) (t_sn s) (t_pending s) (t_addr s) (t_names s) (t_bal s) (t_out s ++ [o]).
(** lines 105-107 on_install *)
Definition token_installed (owner bmc : bytes) : tstate := TState owner bmc 0 [] [] [] [] [].
Definition key_eqb (a b : bytes * bytes) : bool := bytes_eqb (fst a) (fst b) && bytes_eqb (snd a) (snd b).
Fixpoint zdel {V} (k : Z) (l : list (Z * V)) : list (Z * V) := match l with [] => [] | (x, v) :: r => if k =? x then zdel k r else (x, v) :: zdel k r end.
Fixpoint bdel (k : bytes * bytes) (l : list ((bytes * bytes) * (Z * Z))) : list ((bytes * bytes) * (Z * Z)) :=
  match l with [] => [] | (x, v) :: r => if key_eqb k x then bdel k r else (x, v) :: bdel k r end.
(** lines 388-397 _get_balance: usable and locked *)
Definition balance (s : tstate) (user name : bytes) : Z * Z := match aget key_eqb (user, name) (t_bal s) with Some b => b | None => (0, 0) end.
(** lines 373-386 _update_balance_by *)
Definition update (s : tstate) (user name : bytes) (usable locked : Z) : tstate :=
  let b := balance s user name in
  let u := fst b + usable in let l := snd b + locked in
  with_bal s (if (u =? 0) && (l =? 0) then bdel (user, name) (t_bal s) else aput key_eqb (user, name) (u, l) (t_bal s)).

Section TOKEN.
Variable addr_of : bytes -> option bytes.
(** lines 146-154 register *)
Definition t_register (s : tstate) (sender name a : bytes) : res tstate :=
  if negb (bytes_eqb (t_owner s) sender) then Raise (X_BSH 1 "Not allowed caller")
  else match kget name (t_addr s) with
       | Some _ => Raise (X_BSH 2 "Duplicated token name")
       | None => Val (with_tokens s (kput name a (t_addr s)) (t_names s ++ [name]))
       end.
(** lines 156-173 unregister: only the list of names is changed.  The loop of 164-173: [todo] rounds are left, i = count - todo *)
Fixpoint put_at (i : nat) (x : bytes) (l : list bytes) : list bytes := match l, i with [], _ => [] | _ :: r, O => x :: r | y :: r, S k => y :: put_at k x r end.
Fixpoint unreg_loop (todo count : nat) (found : bool) (name : bytes) (l : list bytes) : list bytes :=
  match todo with
  | O => l
  | S k =>
      let i := (count - todo)%nat in
      let found' := found || bytes_eqb name (nth i l []) in
      unreg_loop k count found' name (if found' then if Nat.ltb i (count - 1) then put_at i (nth (S i) l []) l else removelast l else l)
  end.
Definition t_unregister (s : tstate) (sender name : bytes) : res tstate :=
  if negb (bytes_eqb (t_owner s) sender) then Raise (X_BSH 1 "Not allowed caller")
  else match kget name (t_addr s) with
       | None => Raise (X_BSH 3 "Not registered token")
       | Some _ => Val (with_tokens s (t_addr s) (unreg_loop (length (t_names s)) (length (t_names s)) false name (t_names s)))
       end.
(** lines 175-189 tokenFallback: the sender is the token; the first name with its address *)
Definition name_of (s : tstate) (token : bytes) : option bytes := find (fun n => match kget n (t_addr s) with Some a => bytes_eqb token a | None => false end) (t_names s).
Definition t_fallback (s : tstate) (sender from : bytes) (value : Z) : res tstate :=
  if value <? 0 then Raise (X_BSH 4 "Not allowed value amount")
  else match name_of s sender with
       | Some (c :: r) => Val (update s from (c :: r) value 0)
       | _ => Raise (X_BSH 3 "Not registered token")
       end.
(** lines 191-207 reclaim *)
Definition t_reclaim (s : tstate) (sender name : bytes) (value : Z) (pay_ok : bool) : res tstate :=
  if value <? 0 then Raise (X_BSH 4 "Not allowed value amount")
  else match kget name (t_addr s) with
       | None => Raise (X_BSH 3 "Not registered token")
       | Some a =>
           if fst (balance s sender name) <? value then Raise (X_BSH 5 "Overdrawn")
           else if pay_ok then Val (tell (update s sender name (- value) 0) (TPay a sender value)) else Raise XOther
       end.
(** lines 324-328 _send_message *)
Definition t_send (s : tstate) (sn : Z) (net : bytes) (m : jmsg) (bmc_ok : bool) : res tstate := if bmc_ok then Val (tell s (TSend sn net m)) else Raise XOther.
(** lines 209-237 transfer with 330-333 _generate_serial_number and 335-342 _put_pending *)
Definition t_transfer (s : tstate) (sender name to : bytes) (value : Z) (bmc_ok : bool) : res tstate :=
  match kget name (t_addr s) with
  | None => Raise (X_BSH 3 "Not registered token")
  | Some _ =>
      if value <? 0 then Raise (X_BSH 4 "Not allowed value amount")
      else match valid_address to with
           | Raise (XBtp _ _) => Raise (X_BSH 6 "Invalid BTPAddress format")
           | Raise XOther => Raise XOther
           | Val a =>
               if fst (balance s sender name) <? value then Raise (X_BSH 5 "Overdrawn")
               else
                 let s1 := update s sender name (- value) value in
                 let sn := t_sn s1 + 1 in
                 let s2 := with_pending s1 sn (aput Z.eqb sn (Pend sender (pa_contract a) name value) (t_pending s1)) in
                 bind (t_send s2 sn (pa_net a) (JReq (pa_contract a) name value) bmc_ok) (fun s3 => Val (tell s3 (TStart sender name sn value (pa_contract a))))
           end
  end.
(** lines 239-280 handleBTPMessage, with 344-371 for the pending entries *)
Definition UNKNOWN_TYPE : bytes := str "res_unknown_type".
Definition t_message (s : tstate) (sender net : bytes) (sn : Z) (m : jmsg) (bmc_ok : bool) : res tstate :=
  if negb (bytes_eqb (t_bmc s) sender) then Raise (X_BSH 1 "Not allowed caller")
  else match m with
       | JReq to name value =>
           bind (need (addr_of to)) (fun user =>
           match kget name (t_addr s) with
           | Some _ => t_send (update s user name value 0) sn net (JRes 0) bmc_ok
           | None => t_send s sn net (JRes (-1)) bmc_ok
           end)
       | JRes code =>
           match aget Z.eqb sn (t_pending s) with
           | None => Raise (X_BSH 3 "No pending message")
           | Some p =>
               let s1 := if code =? 0 then update s (q_from p) (q_name p) 0 (- q_value p) else update s (q_from p) (q_name p) (q_value p) (- q_value p) in
               Val (tell (with_pending s1 (t_sn s1) (zdel sn (t_pending s1))) (TEnd sn code))
           end
       | JOther _ => t_send s sn net (JOther UNKNOWN_TYPE) bmc_ok
       | JBad => Raise XOther
       end.
(** lines 282-298 handleBTPError: only requests are pending *)
Definition t_error (s : tstate) (sender : bytes) (sn : Z) : res tstate :=
  if negb (bytes_eqb (t_bmc s) sender) then Raise (X_BSH 1 "Not allowed caller")
  else match aget Z.eqb sn (t_pending s) with
       | None => Raise (X_BSH 3 "No pending message")
       | Some p => let s1 := update s (q_from p) (q_name p) (q_value p) (- q_value p) in Val (with_pending s1 (t_sn s1) (zdel sn (t_pending s1)))
       end.
Inductive tcall :=
| KRegister (sender name a : bytes) | KUnregister (sender name : bytes) | KFallback (sender from : bytes) (value : Z) | KReclaim (sender name : bytes) (value : Z) (pay_ok : bool)
| KTransfer (sender name to : bytes) (value : Z) (bmc_ok : bool) | KMessage (sender net : bytes) (sn : Z) (m : jmsg) (bmc_ok : bool) | KError (sender : bytes) (sn : Z).
Definition tcall_result (s : tstate) (c : tcall) : res tstate :=
  match c with
  | KRegister x n a => t_register s x n a
  | KUnregister x n => t_unregister s x n
  | KFallback x f v => t_fallback s x f v
  | KReclaim x n v ok => t_reclaim s x n v ok
  | KTransfer x n t v ok => t_transfer s x n t v ok
  | KMessage x net sn m ok => t_message s x net sn m ok
  | KError x sn => t_error s x sn
  end.
Definition tstep (s : tstate) (c : tcall) : tstate := match tcall_result s c with Val s' => s' | Raise _ => s end.
Definition trun (s : tstate) (cs : list tcall) : tstate := fold_left tstep cs s.
End TOKEN.
