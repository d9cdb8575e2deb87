(** Model of the log filter (common/log/filter.go, log.go, forwarder.go) and of the connection options
    (chain/icon/client/client.go). *)
From Coq Require Import String Ascii ZArith List Bool.
From Verif Require Import Base GoStr.
Import ListNotations.
Open Scope Z_scope.

(** * Log levels *)
(** log.go 17-25 with logrus' numbering: panic 0, fatal 1, error 2, warn 3, info 4, debug 5, trace 6 *)
Definition PanicLevel := 0. Definition FatalLevel := 1. Definition ErrorLevel := 2. Definition WarnLevel := 3.
Definition InfoLevel := 4. Definition DebugLevel := 5. Definition TraceLevel := 6.
(** log.go 27-47 *)
Definition Level_String (l : Z) : list Z :=
  if l =? TraceLevel then str "trace" else if l =? DebugLevel then str "debug" else if l =? InfoLevel then str "info"
  else if l =? WarnLevel then str "warn" else if l =? ErrorLevel then str "error" else if l =? FatalLevel then str "fatal"
  else if l =? PanicLevel then str "panic" else str "unknown".
(** strings.ToLower on ASCII; other bytes are kept (they match no level name) *)
Definition to_lower (s : list Z) : list Z := map (fun c => if (65 <=? c) && (c <=? 90) then c + 32 else c) s.
(** log.go 49-69: level and whether an error is returned *)
Definition ParseLevel (s : list Z) : Z * bool :=
  let t := to_lower s in
  if bytes_eqb t (str "panic") then (PanicLevel, false) else if bytes_eqb t (str "fatal") then (FatalLevel, false)
  else if bytes_eqb t (str "error") then (ErrorLevel, false) else if bytes_eqb t (str "warn") then (WarnLevel, false)
  else if bytes_eqb t (str "info") then (InfoLevel, false) else if bytes_eqb t (str "debug") then (DebugLevel, false)
  else if bytes_eqb t (str "trace") then (TraceLevel, false) else (DebugLevel, true).
(** forwarder.go 77-106: the cases fall through *)
Definition HookLevels (s : list Z) : result (list Z) :=
  match ParseLevel s with
  | (_, true) => Err 1
  | (l, false) =>
      Ok ((if TraceLevel <=? l then [TraceLevel] else []) ++ (if DebugLevel <=? l then [DebugLevel] else []) ++
          (if InfoLevel <=? l then [InfoLevel] else []) ++ (if WarnLevel <=? l then [WarnLevel] else []) ++
          (if ErrorLevel <=? l then [ErrorLevel] else []) ++ (if FatalLevel <=? l then [FatalLevel] else []) ++ [PanicLevel])
  end.

(** strings.LastIndex of one byte *)
Fixpoint last_index (s : list Z) (c : Z) : option nat :=
  match s with
  | [] => None
  | x :: r => match last_index r c with Some n => Some (S n) | None => if x =? c then Some O else None end
  end.
(** log.go 306-317 *)
Definition getPackageName (f : list Z) : list Z :=
  let f := match last_index f (ch "/") with Some n => skipn (S n) f | None => f end in
  match str_index f (str ".") with Some (S n) => firstn (S n) f | _ => f end.

(** * Filter *)
(** filter.go 9-16; the map as an association list in which the first entry of a key counts *)
Record filter_t := mkFilter { f_default : Z; f_modules : list (list Z * Z); f_file : bool }.
Fixpoint lookup (m : list (list Z * Z)) (k : list Z) : option Z :=
  match m with [] => None | (a, v) :: r => if bytes_eqb a k then Some v else lookup r k end.
(** The module field of an entry: absent, a string, or a value of another type *)
Inductive field := FAbsent | FStr (s : list Z) | FOther.
(** logrus.Entry as far as used: level, module field, function of the caller *)
Record entry := mkEntry { e_level : Z; e_module : field; e_caller : option (list Z) }.
(** filter.go 30-39 *)
Definition entry_module (e : entry) : result (list Z) :=
  match e_module e with
  | FAbsent => Ok (match e_caller e with Some f => getPackageName f | None => [] end)
  | FStr s => Ok s
  | FOther => Panic
  end.
(** filter.go 27-56: what goes to the console (the return value) and to the file; [fmt] is the inner formatter *)
Definition Format (fmt : entry -> list Z) (f : filter_t) (e : entry) : result (list Z * list Z) :=
  rbind (entry_module e) (fun m =>
  let level := if (0 <? zlen m) then match lookup (f_modules f) m with Some lv => lv | None => f_default f end else f_default f in
  if (level <? e_level e) && negb (f_file f) then Ok ([], [])
  else
    let buf := fmt e in
    let file := if f_file f && (0 <? zlen buf) then buf else [] in
    if level <? e_level e then Ok ([], file) else Ok (buf, file)).
(** filter.go 58-60, 70-72, 79-82 *)
Definition SetModuleLevel (f : filter_t) (m : list Z) (l : Z) : filter_t := mkFilter (f_default f) ((m, l) :: f_modules f) (f_file f).
Definition SetDefaultLevel (f : filter_t) (l : Z) : filter_t := mkFilter l (f_modules f) (f_file f).
(** filter.go 62-68 *)
Definition GetModuleLevel (f : filter_t) (m : list Z) : Z := match lookup (f_modules f) m with Some l => l | None => f_default f end.

(** * Connection options *)
(** client.go 604-615; [opts] is the map in the order it is ranged over *)
Fixpoint join (sep : list Z) (l : list (list Z)) : list Z :=
  match l with [] => [] | [x] => x | x :: r => x ++ sep ++ join sep r end.
Definition ToHeaderValue (opts : list (list Z * list Z)) : list Z := join (str ",") (map (fun kv => fst kv ++ str "=" ++ snd kv) opts).
(** m[k] = v *)
Fixpoint opt_set (m : list (list Z * list Z)) (k v : list Z) : list (list Z * list Z) :=
  match m with [] => [(k, v)] | (a, b) :: r => if bytes_eqb a k then (k, v) :: r else (a, b) :: opt_set r k v end.
(** client.go 617-635; None is the nil map *)
Definition NewIconOptionsByHeader (s : list Z) : option (list (list Z * list Z)) :=
  match s with
  | [] => None
  | _ => Some (fold_left (fun m kv =>
           match kv with
           | [] => m
           | _ => match str_index kv (str "=") with
                  | Some (S n) => opt_set m (firstn (S n) kv) (skipn (S (S n)) kv)
                  | _ => opt_set m kv []
                  end
           end) (str_split s (ch ",")) [])
  end.
(** client.go 580-589 *)
Definition opt_Get (m : option (list (list Z * list Z))) (k : list Z) : list Z :=
  match m with
  | None => []
  | Some m => match find (fun kv => bytes_eqb (fst kv) k) m with Some kv => snd kv | None => [] end
  end.
