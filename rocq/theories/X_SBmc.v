(** A small message center for the EVM with two neighbours, for the examples beside its theorems. *)
From Coq Require Import String Ascii ZArith List Bool.
From Verif Require Import Base GoStr M_SolRlp M_BtpAddr M_Bridge M_JMap M_SBmc S_SBmc.
Import ListNotations.
Open Scope Z_scope.

Definition x_own : text := str "0x2.bsc".
Definition x_icon : text := str "0x1.icon".
Definition x_bsc3 : text := str "0x3.hmny".
Definition x_link : text := str "btp://0x1.icon/cx01".
Definition x_link3 : text := str "btp://0x3.hmny/0xaa".
Definition x_junk : list Z -> mem := fun _ _ => 0.
(** every relay message carries one message, its own bytes; the bytes [0] carry none *)
Definition x_verify : nat -> Z -> text -> Z -> list Z -> option (list (list Z)) := fun _ _ _ _ b => match b with [0] => Some [] | _ => Some [b] end.
(** the service at 50 answers every message with a number, the one at 51 reverts, there is nothing at 52, others do nothing *)
Definition x_serve : nat -> Z -> bshcall -> action := fun _ a c =>
  if a =? 50 then match c with BMessage src svc sn b => if 0 <? sn then Calls [SCall src svc (- sn) (str "pong") 0 false] [] else Calls [] [] | _ => Calls [] [] end
  else if a =? 51 then Reverts (str "no")
  else if a =? 52 then NoCode else Calls [] [].
Definition x_blame : nat -> text := fun _ => str "25:NotExistsInternal".
Definition x_accepts : nat -> Z -> Z -> bool := fun _ _ _ => true.
Definition x_exec := exec x_own 10 11 12 x_junk x_verify x_serve x_blame x_accepts.
Definition x_run := run x_own 10 11 12 x_junk x_verify x_serve x_blame x_accepts.
Definition x_bytes (m : msg) : list Z := match encodeBTPMessage m with Some b => b | None => [] end.
(** set up by owner 1: services, two links, relay 7 on both, fees *)
Definition x_setup : list op :=
  [AddVerifier 1 x_icon 20; AddVerifier 1 x_bsc3 21; AddService 1 (str "xcall") 50; AddService 1 (str "bad") 51; AddService 1 (str "gone") 52;
   AddLink 1 x_link; AddLink 1 x_link3; AddRelay 1 x_link 7; AddRelay 1 x_link3 7; SetFeeTable 1 [(x_icon, [5; 6]); (x_bsc3, [2; 3])]].
Definition x_base : st := x_run 1 x_setup.
Definition x_msg (dst svc : text) (sn nsn : Z) (vals : list Z) : msg := Msg x_icon dst svc sn (str "ping") nsn (Fee x_icon vals).
