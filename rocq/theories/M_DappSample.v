(** Model of the sample of the call service, e2edemo: dapp-sample/.../DAppProxySample.java (J) with RollbackData.java, and solidity/contracts/dapp-sample/DAppProxySample.sol (S).
    - One definition for both; [java] says which.  Reverting is [None]; then nothing is changed.
    - The encoding of rollback data ([enc], [dec]: RLPn in J, the ABI in S) and the hash of S ([H]) are parameters.
    - The call service may make calls before it answers with a number or reverts ([XCalls]); of these those that revert are undone. *)
From Coq Require Import ZArith List Bool.
From Verif Require Import Base GoStr M_JMap.
Import ListNotations.
Open Scope Z_scope.
Local Notation bytes := (list Z).

(** What happened, newest first.  The id of XBack is not in the event. *)
Inductive xentry :=
| XSent (to data : bytes) (rollback : bytes)          (* J 74, S 55-66 sendCallMessage with these *)
| XStored (id : Z) (rollback : bytes) (sn : Z)
| XBack (id : Z) (from : bytes) (sn : Z) (rollback : bytes)   (* J 96, S 87 RollbackDataReceived *)
| XMessage (from data : bytes).                       (* J 104, S 94 MessageReceived *)
Record dapp := Dapp { x_last : Z; x_rb : list (Z * (bytes * Z)); x_log : list xentry }.
Definition dapp_installed : dapp := Dapp 0 [] [].
Definition REVERT_MESSAGE : bytes := [114; 101; 118; 101; 114; 116; 77; 101; 115; 115; 97; 103; 101].

Inductive xcall :=
| XSend (to data : bytes) (rollback : option bytes) (answer : option Z)
| XHandle (caller from data : bytes).
Inductive xtree := XCalls (c : xcall) (nested : list xtree).

Section DAPP.
Variables (java : bool) (svc own : bytes).   (* J 33-34, S 11-12 *)
Variables (enc : Z -> bytes -> bytes) (dec : bytes -> option (Z * bytes)) (H : bytes -> bytes).
(** S 34-45 compareTo; equals in J (RollbackData.java 82-103) *)
Definition same (a b : bytes) : bool := if java then bytes_eqb a b else bytes_eqb (H a) (H b).
(** J 57, S 52: whether there is rollback data *)
Definition two_way (rb : option bytes) : option bytes := match rb with Some r => if java then Some r else match r with [] => None | _ => Some r end | None => None end.
Definition xnote (e : xentry) (s : dapp) : dapp := Dapp (x_last s) (x_rb s) (e :: x_log s).
(** J 84-106, S 76-96 handleCallMessage *)
Definition handle (s : dapp) (caller from data : bytes) : option dapp :=
  if negb (bytes_eqb caller svc) then None
  else if same own from
  then match dec data with
       | None => None
       | Some (id, r) =>
           match aget Z.eqb id (x_rb s) with
           | None => if java then None
                     else if same r [] then Some (xnote (XBack id from 0 r) s) else None   (* an entry that is missing reads as zeros *)
           | Some (r', sn) => if same r r' then Some (xnote (XBack id from sn r) (Dapp (x_last s) (adel Z.eqb id (x_rb s)) (x_log s))) else None
           end
       end
  else if same REVERT_MESSAGE data then None
  else Some (xnote (XMessage from data) s).
(** J 56-70, S 47-68 sendMessage *)
Fixpoint xexec (t : xtree) (s : dapp) {struct t} : option dapp :=
  let runs := fix runs (l : list xtree) (s : dapp) : dapp := match l with [] => s | x :: r => runs r (match xexec x s with Some s' => s' | None => s end) end in
  match t with
  | XCalls (XHandle caller from data) _ => handle s caller from data
  | XCalls (XSend to data rb answer) nested =>
      match two_way rb with
      | Some r =>
          let id := x_last s + 1 in
          let s1 := runs nested (xnote (XSent to data (enc id r)) (Dapp id (x_rb s) (x_log s))) in
          match answer with
          | Some sn => Some (xnote (XStored id r sn) (Dapp (x_last s1) (aput Z.eqb id (r, sn) (x_rb s1)) (x_log s1)))
          | None => None
          end
      | None =>
          let s1 := runs nested (xnote (XSent to data []) s) in
          match answer with Some _ => Some s1 | None => None end
      end
  end.
Definition xtrees (s : dapp) (l : list xtree) : dapp := fold_left (fun s t => match xexec t s with Some s' => s' | None => s end) l s.
End DAPP.
