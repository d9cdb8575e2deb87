(** Model of common/config/fileconfig.go, of the paths and key stores in cmd/relay/main.go, and of resolveUnixPath in
    common/http.go.  path/filepath is modelled by its documented behaviour on unix; [filepath.Rel] only for two absolute
    paths, its only use.  [wd] is what os.Getwd returns. *)
From Coq Require Import String Ascii ZArith List Bool.
From Verif Require Import Base GoStr M_Address.
Import ListNotations.
Open Scope Z_scope.

Definition slash : Z := 47.
Definition dot : list Z := [46].
Definition dotdot : list Z := [46; 46].
(** filepath.IsAbs *)
Definition IsAbs (p : list Z) : bool := match p with c :: _ => c =? slash | [] => false end.
(** the elements of a path that matter: neither empty nor "." *)
Definition matters (c : list Z) : bool := negb (is_empty c || bytes_eqb c dot).
Definition elems (p : list Z) : list (list Z) := filter matters (str_split p slash).
Fixpoint join (l : list (list Z)) : list Z :=
  match l with [] => [] | [c] => c | c :: r => c ++ slash :: join r end.
(** filepath.Clean, path.Clean: ".." takes away the element before it; at the root there is none.  [up]: the elements so far, last first. *)
Definition clean_step (rooted : bool) (up : list (list Z)) (c : list Z) : list (list Z) :=
  if bytes_eqb c dotdot then
    match up with
    | x :: up' => if bytes_eqb x dotdot then c :: up else up'
    | [] => if rooted then [] else [c]
    end
  else c :: up.
Definition clean_elems (rooted : bool) (l : list (list Z)) : list (list Z) := rev (fold_left (clean_step rooted) l []).
Definition render (rooted : bool) (l : list (list Z)) : list Z :=
  if rooted then slash :: join l else match l with [] => dot | _ => join l end.
Definition Clean (p : list Z) : list Z := render (IsAbs p) (clean_elems (IsAbs p) (elems p)).
(** filepath.Join, path.Join of two elements: empty ones are left out *)
Definition Join (a b : list Z) : list Z :=
  match a, b with
  | [], [] => []
  | [], _ => Clean b
  | _, [] => Clean a
  | _, _ => Clean (a ++ slash :: b)
  end.
(** filepath.Dir: what is before the last slash, cleaned *)
Fixpoint upto_last_slash (p : list Z) : list Z :=
  match p with
  | [] => []
  | c :: r => match upto_last_slash r with [] => if c =? slash then [c] else [] | d => c :: d end
  end.
Definition Dir (p : list Z) : list Z := Clean (upto_last_slash p).
(** filepath.Abs *)
Definition Abs (wd p : list Z) : list Z := if IsAbs p then Clean p else Join wd p.
(** filepath.Rel of two absolute paths *)
Fixpoint rel_elems (base targ : list (list Z)) : list (list Z) :=
  match base, targ with
  | b :: base', t :: targ' => if bytes_eqb b t then rel_elems base' targ' else repeat dotdot (length base) ++ targ
  | _, _ => repeat dotdot (length base) ++ targ
  end.
Definition Rel (base targ : list Z) : list Z :=
  match rel_elems (elems (Clean base)) (elems (Clean targ)) with [] => dot | l => join l end.

(** fileconfig.go 16-25 *)
Definition ResolveAbsolute (wd file p : list Z) : list Z :=
  if IsAbs p then p else match file with [] => Abs wd p | _ => Clean (Join (Dir file) p) end.
(** fileconfig.go 27-33 *)
Definition ResolveRelative (wd file p : list Z) : list Z := Rel (Abs wd (Dir file)) (Abs wd p).

(** common/http.go 65-81: None is the error *)
Definition resolveUnixPath (wd p : list Z) : option (list Z) :=
  let abs := Abs wd p in
  if bytes_eqb abs [slash] then None
  else let rel := Rel (Abs wd dot) abs in
       if (length rel <? length abs)%nat then Some rel else Some abs.

(** fileconfig.go 49-92: Save and Load of something that is a fileConfig; [files] maps the paths given to the system to
    contents, [enc] and [dec] are encoding/json.  The result has the new file path. *)
Section Files.
Context {A : Type}.
Variable enc : A -> option (list Z).
Variable dec : list Z -> option A.
Definition files := list Z -> option (list Z).
Definition target (wd file name : list Z) : list Z := match name with [] => [] | _ => ResolveAbsolute wd file name end.
(** [can]: whether a path can be opened for writing *)
Definition Save (wd file : list Z) (can : list Z -> bool) (fs : files) (a : A) (name : list Z) : option (files * list Z) :=
  let p := target wd file name in
  if can p then match enc a with Some b => Some (fun q => if bytes_eqb q p then Some b else fs q, p) | None => None end else None.
Definition Load (wd file : list Z) (fs : files) (name : list Z) : option (A * list Z) :=
  let p := target wd file name in
  match fs p with Some b => match dec b with Some a => Some (a, p) | None => None end | None => None end.
End Files.

(** * The relay's commands, cmd/relay/main.go *)
(** the parts of Config with paths (55-61, chain/config.go 36-43); the log writer's settings are always there because its
    options have defaults *)
Record pcfg := mkPcfg { p_file : list Z; p_base : list Z; p_log : list Z }.
(** the options on the command line or in the environment, empty if not given *)
Record flags := mkFlags { f_config : list Z; f_base : list Z; f_log : list Z }.
(** main.go 142-168 PersistentPreRunE; [read] gives base_dir and log_writer.filename of a configuration file (None: it
    cannot be read).  Options win over the file. *)
Definition preRun (wd : list Z) (f : flags) (read : list Z -> option (list Z * list Z)) : option pcfg :=
  match (match f_config f with [] => Some ([], []) | _ => read (f_config f) end) with
  | None => None
  | Some (base, log) =>
      let file := match f_config f with [] => [] | c => Abs wd c end in
      Some (mkPcfg file
        (match f_base f with [] => base | b => ResolveRelative wd file b end)
        (match f_log f with [] => log | l => ResolveRelative wd file l end))
  end.
(** main.go 228-235 the save command: what is written to the file *)
Definition saved (wd : list Z) (c : pcfg) (name : list Z) : pcfg :=
  let file := Abs wd name in mkPcfg file (ResolveRelative wd file (p_base c)) (ResolveRelative wd file (p_log c)).
(** main.go 321-337 setLogger and fileconfig.go 35-37: the files that are used; None: no log file *)
Definition log_file (wd : list Z) (c : pcfg) : option (list Z) := match p_log c with [] => None | l => Some (ResolveAbsolute wd (p_file c) l) end.
Definition AbsBaseDir (wd : list Z) (c : pcfg) : list Z := ResolveAbsolute wd (p_file c) (p_base c).
