(** Model of the relays of a link in the Python contracts: pyscore/bmc/link.py, relay.py, relayer.py and lines 596-605, 678-809 and
    setLink of bmc.py.
    - Python's floats are binary64 numbers m * 2^e: a division gives the nearest one, of two equally near ones the one with an even m.
      Overflow and numbers below 2^-1022 are left out; heights and parameters are far from both.
    - The relays of a link are the list of their addresses in the order of the keys (C100 says when); their counters are left out.
    - A removed relayer loses all its entries here; remove_all leaves every second one (C100_remove_all_refuted).
    - The address of a link is its text here; reading it is in M_PyBmc.v.  Exceptions are values of M_PyBmc.v. *)
From Coq Require Import String Ascii ZArith List Bool.
From Verif Require Import Base GoStr M_JMap M_PyBmc.
Import ListNotations.
Open Scope Z_scope.
Local Notation bytes := (list Z).

(** * Floats *)
Record fl := Fl { f_m : Z; f_e : Z }.
(** the number is f_num / f_den *)
Definition f_num (x : fl) : Z := f_m x * 2 ^ Z.max 0 (f_e x).
Definition f_den (x : fl) : Z := 2 ^ Z.max 0 (- f_e x).
(** the integer nearest to n / d, the even one of two *)
Definition nearest (n d : Z) : Z :=
  let q := n / d in let r := n mod d in
  if 2 * r <? d then q else if 2 * r =? d then (if Z.even q then q else q + 1) else q + 1.
(** a / b for 0 < a, 0 < b: the exponent for which 2^52 <= a / b / 2^e < 2^53 *)
Definition scaled (a b e : Z) : Z * Z := (a * 2 ^ Z.max 0 (- e), b * 2 ^ Z.max 0 e).
Definition exponent (a b : Z) : Z :=
  let e := Z.log2 a - Z.log2 b - 53 in
  let (n, d) := scaled a b e in if n <? 2 ^ 53 * d then e else e + 1.
Definition f_pos (a b : Z) : fl := let e := exponent a b in let (n, d) := scaled a b e in Fl (nearest n d) e.
(** a / b of integers, 0 < b *)
Definition int_div (a b : Z) : fl := if a =? 0 then Fl 0 0 else if 0 <? a then f_pos a b else let x := f_pos (- a) b in Fl (- f_m x) (f_e x).
(** a / x of an integer and a float, 0 < x: the integer is turned into a float first *)
Definition fl_div (a : Z) (x : fl) : fl := let y := int_div a 1 in int_div (f_num y * f_den x) (f_den y * f_num x).
(** link.py 22-23 ceil: int(-1 * n // 1 * -1) *)
Definition f_ceil (x : fl) : Z := - ((- f_num x) / f_den x).

(** * A link *)
(** link.py 31-63: the properties used for relays *)
Record rlink := RLink { r_src : Z; r_dst : Z; r_agg : Z; r_delay : Z; r_idx : Z; r_height : Z; r_rx : Z; r_rxsrc : Z;
  r_relays : list bytes; r_nterm : Z; r_nheight : Z; r_nadd : list bytes; r_nremove : list bytes }.
(** bmc.py 258-265: block_interval_src is set where the link is added *)
Definition new_rlink : rlink := RLink 1000 0 10 3 0 0 0 0 [] 0 0 [] [].
(** link.py 65-68 _scale: 0 is None *)
Definition scale (l : rlink) : option fl := if (r_src l <? 1) || (r_dst l <? 1) then None else Some (int_div (r_src l) (r_dst l)).
(** link.py 70-75 rotate_term *)
Definition rotate_term (l : rlink) : Z := match scale l with Some x => f_ceil (fl_div (r_agg l) x) | None => 0 end.
Definition with_turn (l : rlink) (idx height : Z) : rlink :=
  RLink (r_src l) (r_dst l) (r_agg l) (r_delay l) idx height (r_rx l) (r_rxsrc l) (r_relays l) (r_nterm l) (r_nheight l) (r_nadd l) (r_nremove l).
Definition with_rx (l : rlink) (rx rxsrc : Z) : rlink :=
  RLink (r_src l) (r_dst l) (r_agg l) (r_delay l) (r_idx l) (r_height l) rx rxsrc (r_relays l) (r_nterm l) (r_nheight l) (r_nadd l) (r_nremove l).
Definition with_relays (l : rlink) (x : list bytes) : rlink :=
  RLink (r_src l) (r_dst l) (r_agg l) (r_delay l) (r_idx l) (r_height l) (r_rx l) (r_rxsrc l) x (r_nterm l) (r_nheight l) (r_nadd l) (r_nremove l).
Definition with_next (l : rlink) (term height : Z) (add remove : list bytes) : rlink :=
  RLink (r_src l) (r_dst l) (r_agg l) (r_delay l) (r_idx l) (r_height l) (r_rx l) (r_rxsrc l) (r_relays l) term height add remove.
(** db.py 130-135 at *)
Definition at_index (l : list bytes) (i : Z) : res bytes := need (nth_error l (Z.to_nat i)).
(** link.py 77-84 _rotate *)
Definition rotate_by (l : rlink) (count base : Z) : res (bytes * rlink) :=
  let term := rotate_term l in
  bind (if (0 <? term) && (0 <? count) then
          let idx := r_idx l + count in
          if idx <? zlen (r_relays l) then Val (with_turn l idx (base + term))
          else if zlen (r_relays l) =? 0 then Raise XOther
          else Val (with_turn l (idx mod zlen (r_relays l)) (base + term))
        else Val l) (fun l' =>
  bind (at_index (r_relays l') (r_idx l')) (fun a => Val (a, l'))).
(** link.py 86-109 rotate: None when there is no term *)
Definition guess (l : rlink) (x : fl) (height msg_height : Z) : Z :=
  let g := r_rx l + f_ceil (fl_div (msg_height - r_rxsrc l) x) - 1 in if height <? g then height else g.
Definition rotate (l : rlink) (height msg_height : Z) (has_msg : bool) : res (option bytes * rlink) :=
  let term := rotate_term l in
  match scale l with
  | Some x =>
      if 0 <? term then
        let give := fun r : res (bytes * rlink) => bind r (fun p => Val (Some (fst p), snd p)) in
        if has_msg then
          let g := guess l x height msg_height in
          let c := Z.max 0 (f_ceil (int_div (g - r_height l) term)) in
          let base := r_height l + (c - 1) * term in
          let skip := f_ceil (int_div (height - g) (r_delay l)) - 1 in
          let l' := with_rx l height msg_height in
          if 0 <? skip then give (rotate_by l' (c + skip) height) else give (rotate_by l' c base)
        else
          let c := f_ceil (int_div (height - r_height l) term) in
          give (rotate_by l c (r_height l + (c - 1) * term))
      else Val (None, l)
  | None => Val (None, l)
  end.
(** bmc.py 594-605: who may relay *)
Definition may_relay (l : rlink) (height msg_height : Z) (has_msg : bool) (origin : bytes) : res rlink :=
  bind (rotate l height msg_height has_msg) (fun p =>
  match fst p with
  | None => if existsb (bytes_eqb origin) (r_relays l) then Val (snd p) else Raise (X_BMC 1 "not registered relay")
  | Some a => if bytes_eqb a origin then Val (snd p) else Raise (X_BMC 1 "invalid relay")
  end).
Definition member (x : bytes) (l : list bytes) : bool := existsb (bytes_eqb x) l.
Definition FAIL (s : string) : exn := XBtp 0 (str s).
(** link.py 111-120 add_relay; the new one comes last *)
Definition add_relay (l : rlink) (a : bytes) : res rlink :=
  if 0 <? r_nterm l then
    if member a (r_relays l) || member a (r_nadd l) then Raise (FAIL "already registered relay")
    else if member a (r_nremove l) then Val (with_next l (r_nterm l) (r_nheight l) (r_nadd l) (array_remove (r_nremove l) a))
    else Val (with_next l (r_nterm l) (r_nheight l) (r_nadd l ++ [a]) (r_nremove l))
  else if member a (r_relays l) then Raise (FAIL "already registered relay")
  else Val (with_relays l (r_relays l ++ [a])).
(** db.py 111-117 _remove_key: the entries behind move up *)
Fixpoint take_out (x : bytes) (l : list bytes) : list bytes := match l with [] => [] | y :: r => if bytes_eqb y x then r else y :: take_out x r end.
(** link.py 122-135 remove_relay *)
Definition remove_relay (l : rlink) (a : bytes) (height : Z) : res rlink :=
  if 0 <? r_nterm l then
    if negb (member a (r_relays l)) then Raise (FAIL "not registered relay")
    else if member a (r_nremove l) then Raise (FAIL "already unregistered relay")
    else if member a (r_nadd l) then Val (with_next l (r_nterm l) (r_nheight l) (array_remove (r_nadd l) a) (r_nremove l))
    else Val (with_next l (r_nterm l) (r_nheight l) (r_nadd l) (r_nremove l ++ [a]))
  else if negb (member a (r_relays l)) then Raise (FAIL "not registered relay")
  else
    let l' := with_relays l (take_out a (r_relays l)) in
    if (0 <? zlen (r_relays l')) && (zlen (r_relays l') <=? r_idx l') then bind (rotate_by l' 1 height) (fun p => Val (snd p)) else Val l'.
(** link.py 137-147 get_next_relays *)
Definition get_next_relays (l : rlink) : list bytes := filter (fun a => negb (member a (r_nremove l))) (r_relays l) ++ r_nadd l.
(** link.py 149-157 next_relays: both arrays are popped from their ends; adding a key that is there changes nothing *)
Fixpoint take_all (xs l : list bytes) : list bytes := match xs with [] => l | x :: r => take_all r (take_out x l) end.
Fixpoint put_all (xs l : list bytes) : list bytes := match xs with [] => l | x :: r => put_all r (if member x l then l else l ++ [x]) end.
Definition next_relays (l : rlink) (height : Z) : rlink :=
  if r_nheight l <=? height then
    with_next (with_relays l (put_all (rev (r_nadd l)) (take_all (rev (r_nremove l)) (r_relays l)))) (r_nterm l) (r_nheight l + r_nterm l) [] []
  else l.

(** * The center *)
(** relayer.py: the relay of a relayer for each link *)
Record rbmc := RBmc { m_links : list (bytes * rlink); m_relayers : list (bytes * list (bytes * bytes)) }.
Definition m_link (s : rbmc) (k : bytes) : res rlink := match kget k (m_links s) with Some l => Val l | None => Raise NO_LINK end.
Definition m_set (s : rbmc) (k : bytes) (l : rlink) : rbmc := RBmc (kput k l (m_links s)) (m_relayers s).
(** bmc.py 681-694 addRelayer, 696-707 removeRelayer; neither looks at who calls *)
Definition addRelayer (s : rbmc) (a : bytes) : res rbmc :=
  match kget a (m_relayers s) with Some _ => Raise (FAIL "already exists relayer") | None => Val (RBmc (m_links s) (kput a [] (m_relayers s))) end.
Definition removeRelayer (s : rbmc) (a : bytes) : res rbmc :=
  match kget a (m_relayers s) with None => Raise (FAIL "not found relayer") | Some _ => Val (RBmc (m_links s) (kdel a (m_relayers s))) end.
(** bmc.py 732-747 addRelay, relayer.py 29-32 *)
Definition addRelay (s : rbmc) (origin link a : bytes) : res rbmc :=
  match kget origin (m_relayers s) with
  | None => Raise (X_BMC 1 "not registered relayer")
  | Some x =>
      match kget link x with
      | Some _ => Raise (FAIL "already exists relay")
      | None => bind (m_link s link) (fun l => bind (add_relay l a) (fun l' => Val (RBmc (kput link l' (m_links s)) (kput origin (kput link a x) (m_relayers s)))))
      end
  end.
(** bmc.py 749-764 removeRelay: remove_relay of the relayer has two parameters (relayer.py 34) and is called with one *)
Definition removeRelay (s : rbmc) (origin link a : bytes) (height : Z) : res rbmc :=
  match kget origin (m_relayers s) with None => Raise (X_BMC 1 "not registered relayer") | Some _ => Raise XOther end.
(** bmc.py 784-791 nextRelays *)
Definition nextRelays (s : rbmc) (link : bytes) (term height : Z) : res rbmc :=
  bind (m_link s link) (fun l => Val (m_set s link (next_relays (with_next l term (r_nheight l) (r_nadd l) (r_nremove l)) height))).
(** bmc.py 317-341 setLink; [status] is the verifier's height *)
Definition setLink (s : rbmc) (link : bytes) (interval agg delay height status : Z) : res rbmc :=
  bind (m_link s link) (fun l =>
  if (agg <? 1) || (delay <? 1) then Raise (FAIL "invalid param")
  else
    let l' := RLink (r_src l) interval agg delay (r_idx l) (r_height l) (r_rx l) (r_rxsrc l) (r_relays l) (r_nterm l) (r_nheight l) (r_nadd l) (r_nremove l) in
    Val (m_set s link (if (rotate_term l =? 0) && (0 <? rotate_term l') then with_rx (with_turn l' (r_idx l') (height + rotate_term l')) height status else l'))).
(** a relay message *)
Definition relayMessage (s : rbmc) (link : bytes) (height msg_height : Z) (has_msg : bool) (origin : bytes) : res rbmc :=
  bind (m_link s link) (fun l => bind (may_relay l height msg_height has_msg origin) (fun l' => Val (m_set s link l'))).
Inductive rcall :=
| RRelayer (a : bytes) | RNoRelayer (a : bytes) | RAdd (origin link a : bytes) | RRemove (origin link a : bytes) (height : Z) | RNext (link : bytes) (term height : Z)
| RSet (link : bytes) (interval agg delay height status : Z) | RMsg (link : bytes) (height msg_height : Z) (has_msg : bool) (origin : bytes).
Definition rcall_result (s : rbmc) (c : rcall) : res rbmc :=
  match c with
  | RRelayer a => addRelayer s a
  | RNoRelayer a => removeRelayer s a
  | RAdd o k a => addRelay s o k a
  | RRemove o k a h => removeRelay s o k a h
  | RNext k t h => nextRelays s k t h
  | RSet k i g d h x => setLink s k i g d h x
  | RMsg k h mh b o => relayMessage s k h mh b o
  end.
Definition rstep (s : rbmc) (c : rcall) : rbmc := match rcall_result s c with Val s' => s' | Raise _ => s end.
Definition rrun (s : rbmc) (cs : list rcall) : rbmc := fold_left rstep cs s.
