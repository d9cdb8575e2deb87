(** Model of common/errors/errors.go and of chain/icon/client/error.go 85-108 (chain/ethbr/client/error.go has
    the same function).  Errors are pointers: every error value carries the number of its allocation, which is
    what == compares.  Messages and stacks are left out, except that a fundamental error of pkg/errors is
    [Plain].  Errors of foreign types with their own Cause/Unwrap are not modelled. *)
From Coq Require Import String Ascii ZArith List Bool.
From Verif Require Import Base.
Import ListNotations.
Open Scope Z_scope.

(** The [origin] of a messageError or wrappedError, and the error inside a codedError, may be nil. *)
Inductive gerr :=
| Plain (id : Z)                                   (* New, Errorf: pkg/errors fundamental, no Unwrap *)
| Stacked (id : Z) (e : gerr)                      (* WithStack: pkg/errors withStack, has Cause *)
| Base_ (id : Z) (code : Z)                        (* baseError, 83-112 *)
| Coded (id : Z) (code : Z) (e : option gerr)      (* codedError, 118-142 *)
| Message (id : Z) (origin : option gerr)          (* messageError, 168-203 *)
| Wrapped (id : Z) (code : Z) (origin : option gerr). (* wrappedError, 205-247 *)

Definition err_id (e : gerr) : Z :=
  match e with Plain i | Stacked i _ | Base_ i _ | Coded i _ _ | Message i _ | Wrapped i _ _ => i end.

Definition UnknownError : Z := 0.

(** One turn of the loops in Is and AsValue: Cause or Unwrap, or neither. *)
Definition unwrap (e : gerr) : option (option gerr) :=
  match e with
  | Plain _ | Base_ _ _ => None
  | Stacked _ e' => Some (Some e')
  | Coded _ _ o | Message _ o | Wrapped _ _ o => Some o
  end.
(** Does the type have an ErrorCode method, and what does it return? *)
Definition error_code (e : gerr) : option Z :=
  match e with Base_ _ c | Coded _ c _ | Wrapped _ c _ => Some c | _ => None end.

(** errors.go 254-260 CoderOf = 300-331 AsValue with an ErrorCoder target: the error found, or none.
    reflect.ValueOf(nil).Type() panics when the chain ends in nil. *)
Fixpoint AsCoder (e : gerr) : result (option gerr) :=
  match error_code e with
  | Some _ => Ok (Some e)
  | None => match e with
            | Plain _ | Base_ _ _ => Ok None
            | Stacked _ e' => AsCoder e'
            | Coded _ _ o | Message _ o | Wrapped _ _ o => match o with Some e' => AsCoder e' | None => Panic end
            end
  end.
Definition CoderOf (e : option gerr) : result (option gerr) := match e with Some e => AsCoder e | None => Panic end.
(** errors.go 262-267 *)
Definition CodeOf (e : option gerr) : result Z :=
  rbind (CoderOf e) (fun c => Ok (match c with Some e => (match error_code e with Some c => c | None => UnknownError end) | None => UnknownError end)).

(** errors.go 275-296 *)
Fixpoint Is_ (e : gerr) (target : option gerr) : bool :=
  if (match target with Some t => err_id e =? err_id t | None => false end) then true
  else match e with
       | Plain _ | Base_ _ _ => false
       | Stacked _ e' => Is_ e' target
       | Coded _ _ o | Message _ o | Wrapped _ _ o =>
           match o with Some e' => Is_ e' target | None => match target with None => true | Some _ => false end end
       end.
Definition Is (e target : option gerr) : bool :=
  match e with Some e => Is_ e target | None => match target with None => true | Some _ => false end end.

(** errors.go 158-166; [i] is the fresh allocation *)
Definition WithCode (i : Z) (e : option gerr) (code : Z) : result gerr :=
  rbind (CoderOf e) (fun c => match c with Some _ => Ok (Wrapped i code e) | None => Ok (Coded i code e) end).
(** errors.go 189-203, 233-247, 144-156, 76-78 *)
Definition Wrap (i : Z) (e : option gerr) : gerr := Message i e.
Definition Wrapc (i : Z) (e : option gerr) (c : Z) : gerr := Wrapped i c e.
Definition Errorc (i : Z) (j : Z) (c : Z) : gerr := Coded i c (Some (Plain j)).
Definition WithStack (i : Z) (e : option gerr) : option gerr := match e with Some e => Some (Stacked i e) | None => None end.
(** errors.go 53-58 and 104-109: Code.Equals and baseError.Equals *)
Definition Code_Equals (c : Z) (e : option gerr) : result bool :=
  match e with None => Ok false | Some _ => rbind (CodeOf e) (fun c' => Ok (c' =? c)) end.

(** chain/icon/client/error.go 35-41 *)
Definition CodeBTP : Z := 0. Definition CodeBMC : Z := 10. Definition CodeBMV : Z := 25. Definition CodeBSH : Z := 40. Definition CodeReserved : Z := 55.
(** Which family the message of a revert error names: error.go 85-108. *)
Inductive family := BTPRevert | BMCRevert | BMVRevert | BSHRevert | ReservedRevert.
Definition NewRevertError (i code : Z) : option (gerr * family) :=
  if CodeBTP <=? code then
    Some (Base_ i code,
          if code <=? CodeBMC then BTPRevert else if code <=? CodeBMV then BMCRevert else if code <=? CodeBSH then BMVRevert
          else if code <=? CodeReserved then BSHRevert else ReservedRevert)
  else None.
