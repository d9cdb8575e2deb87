(** Native coin services of several networks (M_Ncs), joined by message centers.  Of the message centers there is what C87 proves of
    them: every message sent is handed over at most once, as sent, and a request that cannot be carried out comes back as an error
    (BTPMessageCenter.java 557-636, 809-842); when is left open.  All services use the same message center functions, so a request may go
    to any network, also one without a service. *)
From Coq Require Import ZArith List Bool.
From Verif Require Import Base M_JMap M_JBmc M_Ncs S_Ncs.
Import ListNotations.
Open Scope Z_scope.

(** what is under way: messages, and errors for the sender of a request *)
Inductive item := IMsg (src sn dst : Z) (b : body) | IErr (dst sn : Z).
Record world := World { w_st : Z -> ncs; w_fly : list item }.
Definition upd (f : Z -> ncs) (n : Z) (s : ncs) : Z -> ncs := fun k => if k =? n then s else f k.
(** the messages among new outputs; answers of unknown type only say so (NativeCoinService.java 332-335) and are left out *)
Definition sent (n : Z) (old new : list nout) : list item :=
  flat_map (fun e => match e with
                     | NSend to sn (BRequest a l) => [IMsg n sn to (BRequest a l)]
                     | NSend to sn (BResponse c) => [IMsg n sn to (BResponse c)]
                     | _ => []
                     end) (skipn (length old) new).
Definition without {A} (k : nat) (l : list A) : list A := firstn k l ++ skipn (S k) l.

Section NET.
Variable nets : list Z.
(** per network: address of the service, its native coin, message center, owner; token ids are the same function of the name *)
Variables selfs names bmcs deployers : Z -> Z.
Variable tid : Z -> Z.
Definition nx (n : Z) := nexec (selfs n) (names n) (bmcs n) (deployers n) tid.

Inductive wop :=
| WLocal (n : Z) (x : ext) (o : nop)   (* a call at a network, not by the message center or the service *)
| WDeliver (k : nat) (x : ext)         (* the message center hands over what is at place k *)
| WFail (k : nat)                      (* the request at place k is not carried out: an error goes back *)
| WDropAnswer (k : nat).               (* the answer at place k is not handed over: an error goes back to the one who gave it *)

Definition wput (w : world) (n : Z) (s : ncs) (fly : list item) : world := World (upd (w_st w) n s) (fly ++ sent n (n_out (w_st w n)) (n_out s)).
Definition wexec (w : world) (o : wop) : option world :=
  match o with
  | WLocal n x o => need (mem n nets && negb (ncaller o =? bmcs n) && negb (ncaller o =? selfs n)) (nbind (nx n (w_st w n) x o) (fun s => Some (wput w n s (w_fly w))))
  | WDeliver k x =>
      match nth_error (w_fly w) k with
      | Some (IMsg src sn dst b) => need (mem dst nets) (nbind (nx dst (w_st w dst) x (HandleMessage (bmcs dst) src sn (Some b))) (fun s => Some (wput w dst s (without k (w_fly w)))))
      | Some (IErr dst sn) => need (mem dst nets) (nbind (nx dst (w_st w dst) x (HandleError (bmcs dst) sn)) (fun s => Some (wput w dst s (without k (w_fly w)))))
      | None => None
      end
  | WFail k => match nth_error (w_fly w) k with Some (IMsg src sn _ (BRequest _ _)) => Some (World (w_st w) (without k (w_fly w) ++ [IErr src sn])) | _ => None end
  | WDropAnswer k => match nth_error (w_fly w) k with Some (IMsg src sn _ (BResponse _)) => Some (World (w_st w) (without k (w_fly w) ++ [IErr src sn])) | _ => None end
  end.
Definition winit : world := World (fun _ => ninit) [].
Definition wstep (w : world) (o : wop) : world := match wexec w o with Some w' => w' | None => w end.
Definition wrun (l : list wop) : world := fold_left wstep l winit.
End NET.
