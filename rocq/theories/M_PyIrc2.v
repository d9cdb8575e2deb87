(** Model of the sample token pyscore/token/sample/irc2/irc2_token.py together with the token service (M_PyToken), with contracts that call back.
    - The Transfer event and the Logger calls are left out, and so is what the data of a transfer are.
    - [tk] is the address of the token, [bs] that of the service; [is_contract] is Address.is_contract.  A contract that receives tokens may call
      anything before it returns or raises ([nested]); of these calls it may catch those that raise, which are undone.
    - Calls of the service to its center are as in M_PyToken; other tokens that the service knows may do anything as well. *)
From Coq Require Import String Ascii ZArith List Bool.
From Verif Require Import Base GoStr M_JMap M_PyBmv M_PyBmc M_PyToken.
Import ListNotations.
Open Scope Z_scope.
Local Notation bytes := (list Z).

(** irc2_token.py 59 and 100-102: the balances, 0 where there is none *)
Definition tbal (tb : list (bytes * Z)) (u : bytes) : Z := match kget u tb with Some v => v | None => 0 end.
(** irc2_token.py 61-79 on_install: the balances and the supply; revert is [None] *)
Definition irc2_install (sender : bytes) (owner : option bytes) (decimals initial : Z) : option (list (bytes * Z) * Z) :=
  if initial <? 0 then None else if decimals <? 0 then None else if 21 <? decimals then None
  else let total := initial * 10 ^ decimals in Some ([(match owner with Some o => o | None => sender end, total)], total).
(** irc2_token.py 110-119 _transfer up to the new balances *)
Definition move_tokens (tb : list (bytes * Z)) (from to : bytes) (v : Z) : option (list (bytes * Z)) :=
  if v <? 0 then None else if tbal tb from <? v then None
  else let tb1 := kput from (tbal tb from - v) tb in Some (kput to (tbal tb1 to + v) tb1).

Record world := World { w_tok : list (bytes * Z); w_bsh : tstate }.
(** What is called from outside.  [ASend]: transfer of the token (lines 104-108); [AReclaim]: reclaim of the service; [ACall]: another call of the service *)
Inductive act :=
| ASend (from to : bytes) (v : Z) (nested : list act) (ok : bool)
| AReclaim (u name : bytes) (v : Z) (nested : list act) (ok : bool)
| ACall (c : tcall).

Section WORLD.
Variable addr_of : bytes -> option bytes.
Variables tk bs : bytes.
Variable is_contract : bytes -> bool.
(** irc2_token.py 110-129 _transfer; [calls] is what the receiving contract calls *)
Definition irc2_transfer (calls : world -> world) (ok : bool) (w : world) (from to : bytes) (v : Z) : res world :=
  match move_tokens (w_tok w) from to v with
  | None => Raise XOther
  | Some tb =>
      if is_contract to then
        if bytes_eqb to bs then bind (t_fallback (w_bsh w) tk from v) (fun s => Val (World tb s))
        else if ok then Val (calls (World tb (w_bsh w))) else Raise XOther
      else Val (World tb (w_bsh w))
  end.
(** token_bsh.py 191-207 reclaim with the transfer of the token: the balance is changed before the token is called *)
Fixpoint exec (a : act) (w : world) {struct a} : res world :=
  let runs := fix runs (l : list act) (w : world) : world := match l with [] => w | x :: r => runs r (match exec x w with Val w' => w' | Raise _ => w end) end in
  match a with
  | ASend from to v nested ok => irc2_transfer (runs nested) ok w from to v
  | AReclaim u n v nested ok =>
      bind (t_reclaim (w_bsh w) u n v true) (fun s =>
      match kget n (t_addr (w_bsh w)) with
      | Some a => if bytes_eqb a tk then irc2_transfer (runs nested) ok (World (w_tok w) s) bs u v
                  else if ok then Val (runs nested (World (w_tok w) s)) else Raise XOther
      | None => Raise XOther
      end)
  | ACall c => bind (tcall_result addr_of (w_bsh w) c) (fun s => Val (World (w_tok w) s))
  end.
Definition wstep (w : world) (a : act) : world := match exec a w with Val w' => w' | Raise _ => w end.
Definition wrun (w : world) (l : list act) : world := fold_left wstep l w.
End WORLD.
