(** A small network to show the theorems are about something: network 1 with owner 200 and message center 100;
    network 2 is linked, network 3 is behind it, service 7 is the contract 70. *)
From Coq Require Import String Ascii ZArith List Bool.
From Verif Require Import Base M_JMap M_JBmc S_JBmc.
Import ListNotations.
Open Scope Z_scope.

Definition peer : addr := Addr 2 20.
Definition msg_in (sn nsn : Z) (dst svc : Z) (f : option fee) : msg := Msg 2 dst svc sn (PBytes [5]) nsn f.
(** the relay message chooses what the verifier returns *)
Definition demo_verify (n : nat) (v : Z) (prev : addr) (rx : Z) (b : list Z) : option (list (option msg)) :=
  match b with
  | [1] => Some [Some (msg_in 4 9 1 7 (Some (Fee 2 [10; 20; 30; 40])))]     (* a request for service 7 *)
  | [2] => Some [Some (msg_in 0 10 1 7 (Some (Fee 2 [10; 20]))); None]      (* the second cannot be parsed *)
  | [3] => Some [Some (msg_in 4 11 1 8 (Some (Fee 2 [10; 20; 30; 40]))); Some (msg_in 0 12 9 7 None)]  (* no such service; no route *)
  | [4] => Some [Some (msg_in 6 13 1 7 (Some (Fee 2 [1; 2; 3; 4])))]        (* service 7 reverts with code 11 *)
  | [5] => Some [Some (Msg 2 1 INTERNAL 15 (PClaim 500 (Some 77)) 15 (Some (Fee 2 [1; 2])))]  (* a claim *)
  | [6] => Some [Some (Msg 2 1 INTERNAL 0 (PResponse 1) (-2) None)]         (* "request 2 failed" *)
  | [7] => Some [Some (Msg 2 1 INTERNAL 0 (PInit [Addr 3 30]) 1 None)]      (* network 2 knows network 3 *)
  | [8] => Some [Some (msg_in 5 14 3 7 (Some (Fee 2 [1; 2; 3; 4])))]        (* on to network 3: which is back *)
  | _ => None
  end.
(** service 7 answers requests, except number 6, which it refuses *)
Definition demo_serve (n : nat) (a : Z) (c : bshcall) : action :=
  match c with
  | BMessage src svc sn _ => if sn =? 6 then Revert (XUser 11) else if 0 <? sn then Calls [SCall src svc (- sn) (PBytes [6]) 0 false] else Calls []
  | BError _ _ _ _ => Calls []
  end.
Definition demo_ok (n : nat) (nid : Z) (m : msg) : bool := negb (nid =? 66).
Definition demo := run 1 100 200 demo_verify demo_serve demo_ok.
Definition demo_exec := exec 1 100 200 demo_verify demo_serve demo_ok.
Definition setup : list op := [AddVerifier 200 2 21; AddLink 200 peer; AddService 200 7 70; AddRelay 200 peer 50].
