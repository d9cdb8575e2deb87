(** Model of javascore/fee-aggregation/bandProtocol/std_reference_basic.py (R), the price feed of the fee aggregation.
    - Symbols are texts; the lists that come as JSON text are lists here, of texts and of whole numbers.
    - What is stored as JSON text is a record; the empty text of a symbol without data is [None].
    - A revert or exception is [None]. *)
From Coq Require Import ZArith List Bool.
From Verif Require Import Base GoStr M_JMap.
Import ListNotations.
Open Scope Z_scope.
Local Notation bytes := (list Z).

(** R 8-9 *)
Definition ONE : Z := 1000000000.
Definition MICRO_SEC : Z := 1000000.
Definition USD : bytes := [85; 83; 68].
(** R 28, 62: rate, last_update, request_id *)
Record rdata := RData { d_rate : Z; d_last : Z; d_id : Z }.
(** R 12: RefDataUpdate *)
Record rupd := RUpd { u_sym : bytes; u_rate : Z; u_time : Z; u_id : Z }.
(** R 18 refs, and the events *)
Record rst := RSt { r_refs : list (bytes * rdata); r_log : list rupd }.

(** R 26-33 _get_ref_data *)
Definition get_ref_data (now : Z) (s : rst) (sym : bytes) : option rdata :=
  if bytes_eqb sym USD then Some (RData ONE now 0) else aget bytes_eqb sym (r_refs s).
(** R 35-42 _get_reference_data: rate, last update of base and quote; a division by 0 is an exception *)
Definition get_reference_data (now : Z) (s : rst) (base quote : bytes) : option (Z * Z * Z) :=
  match get_ref_data now s base with
  | None => None
  | Some b => match get_ref_data now s quote with
              | None => None
              | Some q => if d_rate q =? 0 then None else Some ((d_rate b * ONE * ONE) / d_rate q, d_last b, d_last q)
              end
  end.
(** R 58: the pairs in order *)
Fixpoint bulk_loop (now : Z) (s : rst) (ps : list (bytes * bytes)) : option (list (Z * Z * Z)) :=
  match ps with
  | [] => Some []
  | (b, q) :: r => match get_reference_data now s b q with None => None | Some x => match bulk_loop now s r with None => None | Some l => Some (x :: l) end end
  end.
(** R 52-58 get_reference_data_bulk *)
Definition get_reference_data_bulk (now : Z) (s : rst) (bases quotes : list bytes) : option (list (Z * Z * Z)) :=
  if negb (length bases =? length quotes)%nat then None else bulk_loop now s (combine bases quotes).
(** R 60-63 _set_refs and R 88, the event *)
Definition set_refs (s : rst) (u : rupd) : rst :=
  RSt (aput bytes_eqb (u_sym u) (RData (u_rate u) (u_time u * MICRO_SEC) (u_id u)) (r_refs s)) (r_log s ++ [u]).
(** R 83: zip of the four lists *)
Fixpoint zip4 (a : list bytes) (b c d : list Z) : list rupd :=
  match a, b, c, d with
  | x :: a', y :: b', z :: c', w :: d' => RUpd x y z w :: zip4 a' b' c' d'
  | _, _, _, _ => []
  end.
(** R 65-88 relay *)
Definition relay (owner caller : Z) (s : rst) (syms : list bytes) (rates times ids : list Z) : option rst :=
  if negb (caller =? owner) then None
  else if negb (length syms =? length rates)%nat then None
  else if negb (length syms =? length times)%nat then None
  else if negb (length syms =? length ids)%nat then None
  else Some (fold_left set_refs (zip4 syms rates times ids) s).

(** A history: who relays what; calls that revert change nothing.  The owner may change between calls. *)
Record rcall := RCall { k_owner : Z; k_caller : Z; k_syms : list bytes; k_rates : list Z; k_times : list Z; k_ids : list Z }.
Definition rstep (s : rst) (k : rcall) : rst :=
  match relay (k_owner k) (k_caller k) s (k_syms k) (k_rates k) (k_times k) (k_ids k) with Some s' => s' | None => s end.
Definition rrun (l : list rcall) : rst := fold_left rstep l (RSt [] []).
