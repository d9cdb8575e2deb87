(** Independent specification for hex byte text, ICON addresses and BTP addresses. *)
From Coq Require Import String Ascii ZArith List.
From Verif Require Import Base S_IntConv.
Import ListNotations.
Open Scope Z_scope.

(** [hex_pairs s bs]: [s] spells the bytes [bs], two hex digits (either case) per byte. *)
Inductive hex_pairs : list Z -> list Z -> Prop :=
| hp_nil : hex_pairs [] []
| hp_cons : forall a b x y s bs, hex_char a x -> hex_char b y -> hex_pairs s bs ->
            hex_pairs (a :: b :: s) (16 * x + y :: bs).

(** A well-formed ICON address value: type byte 0 (account) or 1 (contract) and a 20-byte id. *)
Definition valid_address (a : list Z) : Prop :=
  exists t id, a = t :: id /\ (t = 0 \/ t = 1) /\ length id = 20%nat /\ bytes_ok id.

(** Canonical prefix of the type byte. *)
Definition type_prefix (t : Z) : list Z := if t =? 1 then str "cx" else str "hx".

(** The separators of a BTP address. *)
Definition free_of (c : Z) (s : list Z) : Prop := ~ In c s.

(** btp://<nid>.<chain>/<account>, and the same without a network id. *)
Definition compose_btp (proto nid chain account : list Z) : list Z :=
  proto ++ str "://" ++ nid ++ str "." ++ chain ++ str "/" ++ account.
Definition compose_btp_plain (proto chain account : list Z) : list Z :=
  proto ++ str "://" ++ chain ++ str "/" ++ account.

(** [tail] is empty or begins with [c]. *)
Definition ends_at (c : Z) (tail : list Z) : Prop := tail = [] \/ exists t, tail = c :: t.
