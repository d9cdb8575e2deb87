(** What the relay program is for, said without its code: which links there are, which keys they sign with, and which
    password opens a saved key. *)
From Coq Require Import String Ascii ZArith List Bool.
From Verif Require Import Base S_Address M_Relay.
Import ListNotations.
Open Scope Z_scope.

(** the address is of this blockchain: <protocol>://<network id>.<chain>/<account> *)
Definition on_chain (addr chain : list Z) : Prop :=
  exists proto nid account, addr = compose_btp proto nid chain account /\ proto <> [] /\
    free_of (ch ":") proto /\ free_of (ch "/") proto /\ free_of (ch "/") nid /\ free_of (ch ".") nid /\
    free_of (ch "/") chain /\ free_of (ch ".") chain /\ free_of (ch "/") account.
Definition is_icon (addr : list Z) : Prop := on_chain addr (str "icon").
Definition is_evm (addr : list Z) : Prop := on_chain addr (str "eth") \/ on_chain addr (str "hardhat").

(** the messages of [a] for [b] are carried: read from [a]'s node by a reader that fits [a], sent to [b]'s node by a
    writer that fits [b], and paid for and signed by the key [w] *)
Definition carries {W O} (a b : bcfg O) (w : W) (l : link (W := W) (O := O)) : Prop :=
  exists s, snd l = Some s /\
    r_src (fst l) = b_addr a /\ r_dst (fst l) = b_addr b /\ r_endpoint (fst l) = b_endpoint a /\
    s_src s = b_addr a /\ s_dst s = b_addr b /\ s_endpoint s = b_endpoint b /\ s_wallet s = w /\
    ((is_icon (b_addr a) /\ b_bridge a = false /\ r_kind (fst l) = RBtp2) \/
     (is_icon (b_addr a) /\ b_bridge a = true /\ r_kind (fst l) = RBridge) \/
     (is_evm (b_addr a) /\ r_kind (fst l) = REth)) /\
    ((is_icon (b_addr b) /\ s_kind s = SIcon) \/ (is_evm (b_addr b) /\ s_kind s = SEth)).
Definition supported (addr : list Z) : Prop := is_icon addr \/ is_evm addr.
(** the errors the program was told about *)
Definition failed (p : prog) (e : Z) : Prop := exists i, In (Failed i e) (g_notes p).
Definition lost (p : prog) : Prop := exists i e, In (Lost i e) (g_notes p).
(** the states reached from a state *)
Inductive leadsto : prog -> prog -> Prop :=
| T_here : forall p, leadsto p p
| T_next : forall p q r, leadsto p q -> step q r -> leadsto p r.
