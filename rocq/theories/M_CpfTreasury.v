(** Model of the fund contract javascore/fee-aggregation/CPFTreasury/cpf_treasury.py.
    - revert and exceptions are [None]; then nothing is changed.  The texts of events, installments, sponsors and contributors are left out.
    - The value of a payable call is in the balance when the call starts.  The platform refuses to send or burn less than nothing or more than there is.
    - The contract that gets money (line 213, 246) may make calls before it returns or raises ([CCalls]); of these those that raise are undone. *)
From Coq Require Import ZArith List Bool.
From Verif Require Import Base GoStr M_JMap.
Import ListNotations.
Open Scope Z_scope.
Local Notation bytes := (list Z).

(** What happened, newest first: set by whom to what, coins in, burned, sent (budget and amount), sent back *)
Inductive centry :=
| LMax (by_ : bytes) (v : Z)
| LCps (by_ a : bytes)
| LTre (by_ a : bytes)
| LIn (by_ : bytes) (v : Z)
| LBurn (v : Z)
| LFirst (by_ to key : bytes) (budget v : Z)
| LMore (by_ to key : bytes) (budget v : Z)
| LBack (by_ key : bytes) (v : Z).
Record cpf := Cpf {
  c_owner : bytes;
  c_balance : Z;
  c_max : Z;                     (* 53 treasury_fund *)
  c_cps : option bytes;          (* 56 *)
  c_tre : option bytes;          (* 55 *)
  c_keys : list bytes;           (* 50 *)
  c_budget : list (bytes * Z);   (* 51 *)
  c_log : list centry }.
(** 58-60 on_install *)
Definition cpf_installed (owner : bytes) (balance amount : Z) : cpf := Cpf owner balance amount None None [] [] [].

Inductive ccall :=
| CMax (x : bytes) (v : Z)                      (* 92-100 set_maximum_treasury_fund *)
| CCps (x a : bytes)                            (* 103-111 set_cps_score *)
| CTre (x a : bytes)                            (* 123-131 set_cps_treasury_score *)
| CFund (x : bytes) (v : Z)                     (* 277-283 add_fund *)
| CReturn (x : bytes) (v : Z)                   (* 164-173 return_fund_amount *)
| CFallback (x : bytes) (v : Z)                 (* 88-89 fallback *)
| CDisqualify (x : bytes) (v : Z) (key : bytes) (* 256-273 disqualify_proposal_fund *)
| CPropose (x key : bytes) (budget : Z)         (* 176-220 transfer_proposal_fund_to_cps_treasury *)
| CUpdate (x key : bytes) (budget : Z).         (* 223-252 update_proposal_fund *)

(** Address.is_contract: addresses are written with their prefix, 1 for contracts *)
Definition is_contract (a : bytes) : bool := match a with 1 :: _ => true | _ => false end.
Definition is_addr (o : option bytes) (x : bytes) : bool := match o with Some a => bytes_eqb x a | None => false end.
Definition has_key (s : cpf) (k : bytes) : bool := existsb (bytes_eqb k) (c_keys s).
Definition budget_of (s : cpf) (k : bytes) : Z := match aget bytes_eqb k (c_budget s) with Some v => v | None => 0 end.
Definition note (e : centry) (s : cpf) : cpf := Cpf (c_owner s) (c_balance s) (c_max s) (c_cps s) (c_tre s) (c_keys s) (c_budget s) (e :: c_log s).
Definition with_balance (b : Z) (s : cpf) : cpf := Cpf (c_owner s) b (c_max s) (c_cps s) (c_tre s) (c_keys s) (c_budget s) (c_log s).
Definition with_budget (k : bytes) (v : Z) (s : cpf) : cpf := Cpf (c_owner s) (c_balance s) (c_max s) (c_cps s) (c_tre s) (c_keys s) (aput bytes_eqb k v (c_budget s)) (c_log s).
Definition with_key (k : bytes) (s : cpf) : cpf := Cpf (c_owner s) (c_balance s) (c_max s) (c_cps s) (c_tre s) (c_keys s ++ [k]) (c_budget s) (c_log s).

(** 285-292 _burn_extra_fund and 142-152 _burn *)
Definition burn_extra (s : cpf) : option cpf :=
  let extra := c_balance s - c_max s in
  if 0 <? extra
  then if extra <=? c_balance s then Some (note (LBurn extra) (with_balance (c_balance s - extra) s)) else None
  else Some s.
(** the value of a payable call comes in *)
Definition paid_in (v : Z) (s : cpf) : cpf := with_balance (c_balance s + v) s.
(** 193, 236: the reward of the sponsor *)
Definition reward (budget : Z) : Z := budget * 2 / 100.
(** icx(total).call() at 213 and 246 *)
Definition send (s : cpf) (v : Z) (e : bytes -> centry) : option cpf :=
  match c_tre s with
  | None => None
  | Some t => if (0 <=? v) && (v <=? c_balance s) then Some (note (e t) (with_balance (c_balance s - v) s)) else None
  end.

(** One call, up to where the contract that gets money is called *)
Definition cdo (s : cpf) (c : ccall) : option cpf :=
  match c with
  | CMax x v => if bytes_eqb x (c_owner s) then Some (note (LMax x v) (Cpf (c_owner s) (c_balance s) v (c_cps s) (c_tre s) (c_keys s) (c_budget s) (c_log s))) else None
  | CCps x a => if bytes_eqb x (c_owner s) && is_contract a then Some (note (LCps x a) (Cpf (c_owner s) (c_balance s) (c_max s) (Some a) (c_tre s) (c_keys s) (c_budget s) (c_log s))) else None
  | CTre x a => if bytes_eqb x (c_owner s) && is_contract a then Some (note (LTre x a) (Cpf (c_owner s) (c_balance s) (c_max s) (c_cps s) (Some a) (c_keys s) (c_budget s) (c_log s))) else None
  | CFund x v => if v <? 0 then None else burn_extra (note (LIn x v) (paid_in v s))
  | CReturn x v => if v <? 0 then None else if is_addr (c_cps s) x then burn_extra (note (LIn x v) (paid_in v s)) else None
  | CFallback _ _ => None
  | CDisqualify x v k =>
      if v <? 0 then None
      else if is_addr (c_tre s) x
      then if has_key s k then burn_extra (note (LBack x k v) (with_budget k (budget_of s k - v) (paid_in v s))) else None
      else None
  | CPropose x k b =>
      if is_addr (c_cps s) x
      then let total := b + reward b in
           if c_balance s <? total then None
           else if negb (has_key s k) then send (with_budget k total (with_key k s)) total (fun t => LFirst x t k b total)
           else None
      else None
  | CUpdate x k b =>
      if is_addr (c_cps s) x
      then let total := b + reward b in
           if c_balance s <? total then None
           else if has_key s k then send (with_budget k (budget_of s k + total) s) total (fun t => LMore x t k b total)
           else None
      else None
  end.
(** Calls in which another contract is called *)
Definition sends (c : ccall) : bool := match c with CPropose _ _ _ | CUpdate _ _ _ => true | _ => false end.
Inductive ctree := CCalls (c : ccall) (nested : list ctree) (ok : bool).
Fixpoint cexec (t : ctree) (s : cpf) {struct t} : option cpf :=
  let runs := fix runs (l : list ctree) (s : cpf) : cpf := match l with [] => s | x :: r => runs r (match cexec x s with Some s' => s' | None => s end) end in
  match t with
  | CCalls c nested ok => match cdo s c with
                          | None => None
                          | Some s1 => if sends c then if ok then Some (runs nested s1) else None else Some s1
                          end
  end.
Definition ctrees (s : cpf) (l : list ctree) : cpf := fold_left (fun s t => match cexec t s with Some s' => s' | None => s end) l s.

(** 294-317 get_proposals_details: None when more than 50 are asked for *)
Definition details (s : cpf) (start end_ : Z) : option (list (bytes * Z) * Z) :=
  if 50 <? end_ - start then None
  else let start := if start <? 0 then 0 else start in
       let count := zlen (c_keys s) in
       let stop := if count <? end_ then count else end_ in
       Some (map (fun k => (k, budget_of s k)) (firstn (Z.to_nat (stop - start)) (skipn (Z.to_nat start) (c_keys s))), count).
