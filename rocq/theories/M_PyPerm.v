(** Model of the permissions of the Python message center: pyscore/bmc/permission.py and lines 72-175 of bmc.py.
    - The stored dictionaries are lists in the order of their keys (C100 says when); each call of the contract reads them anew.
    - Addresses are their texts.  Exceptions are values of M_PyBmc.v; a call that raises is undone. *)
From Coq Require Import String Ascii ZArith List Bool.
From Verif Require Import Base GoStr M_JMap M_PyDb M_PyBmc M_PyLink.
Import ListNotations.
Open Scope Z_scope.
Local Notation bytes := (list Z).

(** permission.py 20-30 _APIS *)
Definition APIS : list bytes := map str
  ["addPermission"; "removePermission"; "addService"; "removeService"; "addVerifier"; "removeVerifier"; "addLink"; "removeLink";
   "addRoute"; "removeRoute"; "addRelayer"; "removeRelayer"; "addRelay"; "removeRelay"; "renewRelay"; "sendMessage"]%string.
(** permission.py 71-75 from_string with 32-36 __init__: the empty text is None *)
Definition from_string (s : bytes) : option (list bytes) := match s with [] => None | _ => Some (split_keys s) end.
(** permission.py 47-53 is_valid *)
Definition is_valid (l : list bytes) : bool := if zlen l =? 0 then false else forallb (fun a => member a APIS) l.
(** permission.py 77-82 from_string_with_validation *)
Definition checked (s : bytes) : res (list bytes) :=
  match from_string s with
  | Some l => if is_valid l then Val l else Raise (X_BMC 0 "invalid Permission")
  | None => Raise (X_BMC 0 "invalid Permission")
  end.
(** permission.py 55-58 merge *)
Fixpoint merge (org other : list bytes) : list bytes := match other with [] => org | a :: r => merge (if member a org then org else org ++ [a]) r end.
(** permission.py 60-63 remove: list.remove takes out the first one *)
Fixpoint remove_apis (org other : list bytes) : list bytes := match other with [] => org | a :: r => remove_apis (if member a org then take_out a org else org) r end.

(** * The center *)
Record pstate := PState { p_owner : bytes; p_access : bool; p_table : list (bytes * bytes); p_services : list (bytes * bytes) }.
Definition with_table (s : pstate) (t : list (bytes * bytes)) : pstate := PState (p_owner s) (p_access s) t (p_services s).
Definition with_svcs (s : pstate) (t : list (bytes * bytes)) : pstate := PState (p_owner s) (p_access s) (p_table s) t.
Definition unauthorized (api : bytes) : exn := XBtp (10 + 1) api.
(** db.py 173-188 _get for a StringDictDB, permission.py 89-90: a stored empty text is None *)
Definition entry (s : pstate) (a : bytes) : option (list bytes) := match kget a (p_table s) with Some t => from_string t | None => None end.
Definition known (s : pstate) (a : bytes) : bool := match kget a (p_table s) with Some _ => true | None => false end.
(** bmc.py 86-97 _has_permission *)
Definition has_permission (s : pstate) (sender origin api : bytes) : res unit :=
  if p_access s then
    bind (if known s sender then Val sender else if known s origin then Val origin else Raise (unauthorized api)) (fun caller =>
    bind (need (entry s caller)) (fun l => if member api l then Val tt else Raise (unauthorized api)))
  else Val tt.
(** bmc.py 72-77 setAccessControl *)
Definition setAccessControl (s : pstate) (sender : bytes) (enable : bool) : res pstate :=
  if bytes_eqb (p_owner s) sender then Val (PState (p_owner s) enable (p_table s) (p_services s)) else Raise (unauthorized (str "setAccessControl")).
(** bmc.py 99-108 addPermission *)
Definition addPermission (s : pstate) (sender origin a apis : bytes) : res pstate :=
  bind (has_permission s sender origin (str "addPermission")) (fun _ =>
  bind (checked apis) (fun l =>
  if known s a then bind (need (entry s a)) (fun org => Val (with_table s (kput a (join_keys (merge org l)) (p_table s))))
  else Val (with_table s (kput a (join_keys l) (p_table s))))).
(** bmc.py 110-119 removePermission *)
Definition removePermission (s : pstate) (sender origin a apis : bytes) : res pstate :=
  bind (has_permission s sender origin (str "removePermission")) (fun _ =>
  bind (checked apis) (fun l =>
  if known s a then bind (need (entry s a)) (fun org => Val (with_table s (kput a (join_keys (remove_apis org l)) (p_table s))))
  else Raise (X_BMC 10 "not exists permission"))).
(** bmc.py 137-153 addService; [alnum] is str.isalnum *)
Definition grantService (alnum : bytes -> bool) (s : pstate) (sender origin svc a : bytes) : res pstate :=
  bind (has_permission s sender origin (str "addService")) (fun _ =>
  if negb (alnum svc) then Raise (X_BMC 0 "invalid service name")
  else match kget svc (p_services s) with
       | Some _ => Raise (X_BMC 6 "already exists service")
       | None => addPermission (with_svcs s (kput svc a (p_services s))) sender origin a (str "sendMessage")
       end).
(** bmc.py 155-159 _is_exists_service_by_addr, 161-175 removeService *)
Definition serves (s : pstate) (a : bytes) : bool := existsb (fun e => bytes_eqb a (snd e)) (p_services s).
Definition revokeService (s : pstate) (sender origin svc : bytes) : res pstate :=
  bind (has_permission s sender origin (str "removeService")) (fun _ =>
  match kget svc (p_services s) with
  | None => Raise NO_SERVICE
  | Some a =>
      let s' := with_svcs s (kdel svc (p_services s)) in
      if serves s' a then Val s' else removePermission s' sender origin a (str "sendMessage")
  end).
Inductive pcall :=
| PAccess (sender : bytes) (enable : bool) | PAdd (sender origin a apis : bytes) | PRemove (sender origin a apis : bytes)
| PService (sender origin svc a : bytes) | PNoService (sender origin svc : bytes).
Definition pcall_result (alnum : bytes -> bool) (s : pstate) (c : pcall) : res pstate :=
  match c with
  | PAccess x e => setAccessControl s x e
  | PAdd x o a l => addPermission s x o a l
  | PRemove x o a l => removePermission s x o a l
  | PService x o v a => grantService alnum s x o v a
  | PNoService x o v => revokeService s x o v
  end.
Definition pstep (alnum : bytes -> bool) (s : pstate) (c : pcall) : pstate := match pcall_result alnum s c with Val s' => s' | Raise _ => s end.
Definition prun (alnum : bytes -> bool) (s : pstate) (cs : list pcall) : pstate := fold_left (pstep alnum) cs s.
(** bmc.py 56-60 on_install *)
Definition installed (owner : bytes) : pstate := PState owner false [] [].
