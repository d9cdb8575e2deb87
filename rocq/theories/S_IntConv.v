(** Independent specification for integer codecs. *)
From Coq Require Import String Ascii ZArith List.
From Verif Require Import Base.
Import ListNotations.
Open Scope Z_scope.

(** The number a big-endian two's-complement byte string stands for. *)
Definition tc_value (bs : list Z) : Z :=
  match bs with
  | [] => 0
  | b0 :: _ => be_val bs - (if b0 <? 128 then 0 else 256 ^ Z.of_nat (length bs))
  end.

(** [bs] is a shortest two's-complement representation of [x]. *)
Definition shortest_tc (x : Z) (bs : list Z) : Prop :=
  bs <> [] /\ bytes_ok bs /\ tc_value bs = x /\
  forall bs', bs' <> [] -> bytes_ok bs' -> tc_value bs' = x -> (length bs <= length bs')%nat.

(** Value of a hexadecimal digit character (either case). *)
Inductive hex_char : Z -> Z -> Prop :=
| hc_dec : forall d, 0 <= d <= 9 -> hex_char (48 + d) d
| hc_low : forall d, 10 <= d <= 15 -> hex_char (97 + (d - 10)) d
| hc_up  : forall d, 10 <= d <= 15 -> hex_char (65 + (d - 10)) d.

(** [digits_value base ds]: positional value, most significant digit first. *)
Definition digits_value (base : Z) (ds : list Z) : Z := fold_left (fun a d => a * base + d) ds 0.

(** [cs] is a string of hex digits with value [v]. *)
Definition hex_text (cs : list Z) (v : Z) : Prop :=
  exists ds, cs <> [] /\ Forall2 hex_char cs ds /\ v = digits_value 16 ds.

(** [cs] is a string of decimal digits with value [v]. *)
Definition dec_text (cs : list Z) (v : Z) : Prop :=
  exists ds, cs <> [] /\ Forall2 (fun c d => c = 48 + d /\ 0 <= d <= 9) cs ds /\
             v = digits_value 10 ds.

(** Optional minus sign, and its effect on a magnitude. *)
Definition sign_text (neg : bool) : list Z := if neg then str "-" else [].
Definition signed (neg : bool) (v : Z) : Z := if neg then - v else v.

(** Representable in a signed integer of [bits] bits. *)
Definition in_int_range (bits x : Z) : Prop := - 2 ^ (bits - 1) <= x < 2 ^ (bits - 1).

(** Text without superfluous zero: no leading '0' unless it is the only digit. *)
Definition no_leading_zero (cs : list Z) : Prop := hd 0 cs <> ch "0" \/ length cs = 1%nat.

(** The integer widths used by the callers. *)
Definition std_width (bits : Z) : Prop := bits = 8 \/ bits = 16 \/ bits = 32 \/ bits = 64.
