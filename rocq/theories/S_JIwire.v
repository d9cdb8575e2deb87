(** What may be written by the classes of the ICON block verifier: values whose bytes are bytes and whose numbers fit. *)
From Coq Require Import ZArith List Bool.
From Verif Require Import Base M_IntConv M_Rlp S_Wire M_JMta M_JIcon M_JIbmv.
Import ListNotations.
Open Scope Z_scope.

Definition long (z : Z) : Prop := - 2 ^ 63 <= z < 2 ^ 63.
Definition address (b : list Z) : Prop := length b = 21%nat /\ bytes_ok b.
Definition some_ok {A} (P : A -> Prop) (o : option A) : Prop := match o with Some a => P a | None => True end.
(** present, for elements that may not be null *)
Definition there {A} (P : A -> Prop) (o : option A) : Prop := match o with Some a => P a | None => False end.

Definition extension_ok (e : extension) : Prop := some_ok (Forall opt_bytes) e.
Definition result_ok (r : iresult) : Prop := opt_bytes (rs_state r) /\ opt_bytes (rs_patch r) /\ opt_bytes (rs_receipts r) /\ some_ok extension_ok (rs_ext r).
Definition header_ok (h : iheader) : Prop :=
  long (ih_version h) /\ long (ih_height h) /\ long (ih_time h) /\ some_ok address (ih_proposer h) /\ opt_bytes (ih_prev h) /\ opt_bytes (ih_votes h) /\
  opt_bytes (ih_nextVals h) /\ opt_bytes (ih_patchTx h) /\ opt_bytes (ih_tx h) /\ opt_bytes (ih_bloom h) /\ some_ok result_ok (ih_result h).
Definition partset_ok (p : partset) : Prop := long (ps_count p) /\ opt_bytes (ps_hash p).
Definition vote_ok (v : ivote) : Prop := long (iv_time v) /\ opt_bytes (iv_sig v).
Definition votes_ok (v : ivotes) : Prop := long (is_round v) /\ some_ok partset_ok (is_part v) /\ Forall vote_ok (is_items v).
Definition votemsg_ok (m : votemsg) : Prop :=
  long (vm_height m) /\ long (vm_round m) /\ long (vm_type m) /\ opt_bytes (vm_block m) /\ some_ok partset_ok (vm_part m) /\ long (vm_time m).
Definition update_ok (u : iupdate) : Prop := some_ok header_ok (iu_header u) /\ some_ok votes_ok (iu_votes u) /\ some_ok (Forall (there address)) (iu_next u).
Definition witness_ok (w : iwitness) : Prop := long (iw_height w) /\ some_ok (Forall (there bytes_ok)) (iw_hashes w).
Definition blockproof_ok (p : iblockproof) : Prop := some_ok header_ok (ib_header p) /\ some_ok witness_ok (ib_witness p).
Definition proofs_ok (p : proofs) : Prop := some_ok (Forall (there bytes_ok)) p.
Definition mptproof_ok (m : mptproof) : Prop := long (mp_index m) /\ some_ok proofs_ok (mp_proofs m).
Definition receiptproof_ok (p : receiptproof) : Prop := mptproof_ok (rp_main p) /\ some_ok (Forall (some_ok mptproof_ok)) (rp_events p).
Definition relay_ok (m : irelay) : Prop :=
  some_ok (Forall (some_ok update_ok)) (ir_updates m) /\ some_ok blockproof_ok (ir_proof m) /\ some_ok (Forall (some_ok receiptproof_ok)) (ir_receipts m).
Definition event_ok (e : evlog) : Prop := some_ok address (el_addr e) /\ Forall bytes_ok (el_indexed e) /\ Forall bytes_ok (el_data e).
Definition receipt_ok (r : ireceipt) : Prop :=
  long (rc_status r) /\ opt_bytes (rc_to r) /\ opt_bytes (rc_cumulative r) /\ opt_bytes (rc_used r) /\ opt_bytes (rc_price r) /\ opt_bytes (rc_bloom r) /\
  Forall event_ok (rc_logs r) /\ opt_bytes (rc_score r) /\ opt_bytes (rc_logsHash r).
Definition mta_ok (m : jmta) : Prop :=
  long (j_height m) /\ Forall opt_bytes (j_roots m) /\ long (j_offset m) /\ some_ok fits_int (j_rootSize m) /\ some_ok fits_int (j_cacheSize m) /\
  some_ok (fun c => Forall opt_bytes c /\ zlen c < 2 ^ 31) (j_cache m) /\ some_ok fits_int (j_cacheIdx m).
Definition state_ok (p : iprops) : Prop := address (ip_bmc p) /\ bytes_ok (ip_net p) /\ long (ip_last p) /\ Forall address (ip_vals p) /\ mta_ok (ip_mta p).
