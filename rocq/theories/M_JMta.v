(** Model of the Merkle tree accumulator of the ICON block verifier contract, javascore/bmv/icon,
    MerkleTreeAccumulator.java.  Context.hash("sha3-256") is the parameter [H].  A null array is None, a null array of
    roots is the empty one (the code asks for its length with "roots == null ? 0 : roots.length"; ensureRoots does not,
    but is not called with no roots here).  Heights are not wrapped at 2^63.
    Err 1 is MTAException, Err 2 InvalidWitnessNewerException, Err 3 InvalidWitnessOldException; Panic is any other
    exception (null pointer, index out of bounds). *)
From Coq Require Import String Ascii ZArith List Bool.
From Verif Require Import Base M_JBmv.
Import ListNotations.
Open Scope Z_scope.

Local Notation slot := (option (list Z)).
(** MerkleTreeAccumulator.java 32-41 *)
Record jmta := JMta { j_height : Z; j_roots : list slot; j_offset : Z; j_rootSize : option Z; j_cacheSize : option Z;
  j_cache : option (list slot); j_allow : option bool; j_cacheIdx : option Z }.
(** MerkleTreeAccumulator.java 107-109 *)
Definition isAllowNewerWitness (m : jmta) : bool := match j_allow m with Some b => b | None => false end.
(** MerkleTreeAccumulator.java 197-199, 258-260 *)
Definition positive (o : option Z) : bool := match o with Some n => 0 <? n | None => false end.
Definition isRootSizeLimitEnabled (m : jmta) : bool := positive (j_rootSize m).
Definition isCacheEnabled (m : jmta) : bool := positive (j_cacheSize m).
Definition num (o : option Z) : Z := match o with Some n => n | None => 0 end.

(** Replacing element [i] of an array. *)
Fixpoint array_set {A} (i : nat) (x : A) (l : list A) : list A :=
  match i, l with
  | O, _ :: r => x :: r
  | S i', y :: r => y :: array_set i' x r
  | _, [] => []
  end.

Section MTA.
Variable H : list Z -> list Z.

(** MerkleTreeAccumulator.java 118-131, the loop; None is an exception.  concatAndHash (111-116) is that of M_JBmv. *)
Fixpoint climb (ws : list slot) (n : nat) (hash : list Z) (idx : Z) : option (list Z) :=
  match n with
  | O => Some hash
  | S n' =>
      match ws with
      | Some w :: ws' =>
          obind (if Z.rem idx 2 =? 0 then concatAndHash H hash w else concatAndHash H w hash) (fun h => climb ws' n' h (Z.quot idx 2))
      | _ => None
      end
  end.
(** MerkleTreeAccumulator.java 118-131; Arrays.equals with a null root is false *)
Definition verify_root (ws : list slot) (n : nat) (root : slot) (hash : list Z) (idx : Z) : result unit :=
  match climb ws n hash idx with
  | None => Panic
  | Some h => if opt_eqb root (Some h) then Ok tt else Err 1
  end.
(** MerkleTreeAccumulator.java 182-188; the index is not negative *)
Definition getRoot (m : jmta) (idx : nat) : result slot := match nth_error (j_roots m) idx with Some r => Ok r | None => Err 1 end.
(** MerkleTreeAccumulator.java 165-179: [n] is rootIdx + 1 *)
Fixpoint root_idx (rs : list slot) (n : nat) (idx : Z) : result nat :=
  match n with
  | O => Err 1
  | S i => match nth_error rs i with
           | Some (Some _) => if idx <? 2 ^ Z.of_nat i then Ok i else root_idx rs i (idx - 2 ^ Z.of_nat i)
           | _ => root_idx rs i idx
           end
  end.
(** MerkleTreeAccumulator.java 160-180 *)
Definition getRootIdxByHeight (m : jmta) (height : Z) : result nat :=
  if height <=? j_offset m then Err 1 else root_idx (j_roots m) (length (j_roots m)) (height - 1 - j_offset m).
(** MerkleTreeAccumulator.java 298-307; the cache is enabled *)
Definition hasCache (m : jmta) (hash : list Z) : result bool :=
  match j_cache m with None => Panic | Some c => Ok (existsb (fun v => opt_eqb v (Some hash)) c) end.
(** MerkleTreeAccumulator.java 133-158 *)
Definition mta_verify (m : jmta) (ws : list slot) (hash : list Z) (height at_ : Z) : result unit :=
  if j_height m =? at_ then
    rbind (getRoot m (length ws)) (fun root => verify_root ws (length ws) root hash (height - 1 - j_offset m))
  else if j_height m <? at_ then
    if negb (isAllowNewerWitness m) then Err 2
    else if j_height m <? height then Err 1
    else rbind (getRootIdxByHeight m height) (fun i => rbind (getRoot m i) (fun root => verify_root ws i root hash (height - 1 - j_offset m)))
  else if isCacheEnabled m && (j_height m - height - 1 <? num (j_cacheSize m)) then
    rbind (hasCache m hash) (fun b => if b then Ok tt else Err 1)
  else Err 3.

(** MerkleTreeAccumulator.java 190-195: the new array has only the last element set *)
Definition appendRoot (rs : list slot) (hash : list Z) : list slot := repeat None (length rs) ++ [Some hash].
(** MerkleTreeAccumulator.java 309-316 *)
Definition putCache (m : jmta) (hash : list Z) : option jmta :=
  if isCacheEnabled m then
    match j_cache m, j_cacheIdx m with
    | Some c, Some i =>
        if (0 <=? i) && (i <? zlen c) then
          Some (JMta (j_height m) (j_roots m) (j_offset m) (j_rootSize m) (j_cacheSize m) (Some (array_set (Z.to_nat i) (Some hash) c))
                     (j_allow m) (Some (if zlen c <=? i + 1 then 0 else i + 1)))
        else None
    | _, _ => None
    end
  else Some m.
(** MerkleTreeAccumulator.java 229-245: the roots, the hash when it is not added yet, and what the offset grows by (253-256) *)
Fixpoint add_loop (p : Z) (i : nat) (rs : list slot) (hash : list Z) : option (list slot * slot * Z) :=
  match rs with
  | [] => Some ([], Some hash, 0)
  | None :: r => Some (Some hash :: r, None, 0)
  | Some x :: r =>
      if Z.of_nat i =? p then Some (Some hash :: r, None, 2 ^ Z.of_nat i)
      else obind (concatAndHash H x hash) (fun h => obind (add_loop p (S i) r h) (fun y => Some (None :: fst (fst y), snd (fst y), snd y)))
  end.
(** MerkleTreeAccumulator.java 221-251; None is an exception *)
Definition mta_add (m : jmta) (hash : list Z) : option jmta :=
  obind (putCache m hash) (fun m =>
  obind (if j_height m =? j_offset m then Some (appendRoot (j_roots m) hash, 0)
         else obind (add_loop ((if isRootSizeLimitEnabled m then num (j_rootSize m) else 0) - 1) 0 (j_roots m) hash) (fun y =>
              Some (match snd (fst y) with Some h => appendRoot (fst (fst y)) h | None => fst (fst y) end, snd y))) (fun r =>
  Some (JMta (j_height m + 1) (fst r) (j_offset m + snd r) (j_rootSize m) (j_cacheSize m) (j_cache m) (j_allow m) (j_cacheIdx m)))).
Fixpoint mta_adds (m : jmta) (hs : list (list Z)) : option jmta :=
  match hs with [] => Some m | h :: r => obind (mta_add m h) (fun m' => mta_adds m' r) end.

(** MerkleTreeAccumulator.java 212-216: [n] is j + 1; the loop goes on for ever at a null root, None is out of fuel *)
Fixpoint drop_loop (fuel : nat) (rs : list slot) (n : nat) (offset : Z) : option Z :=
  match fuel with
  | O => None
  | S f =>
      match n with
      | O => Some offset
      | S j => match nth_error rs j with
               | Some (Some _) => drop_loop f rs j (offset + 2 ^ Z.of_nat j)
               | _ => drop_loop f rs n offset
               end
      end
  end.
(** MerkleTreeAccumulator.java 204-219 *)
Definition ensureRoots (fuel : nat) (m : jmta) : option jmta :=
  if isRootSizeLimitEnabled m && (num (j_rootSize m) <? zlen (j_roots m)) then
    let k := (length (j_roots m) - Z.to_nat (num (j_rootSize m)))%nat in
    obind (drop_loop fuel (j_roots m) k (j_offset m)) (fun off =>
    Some (JMta (j_height m) (skipn k (j_roots m)) off (j_rootSize m) (j_cacheSize m) (j_cache m) (j_allow m) (j_cacheIdx m)))
  else Some m.

(** MerkleTreeAccumulator.java 273-289: [n] elements of the old cache remain to be copied; the new cache and dst *)
Fixpoint copy_cache (old : list slot) (n src : nat) (new : list slot) (dst : nat) : list slot * nat :=
  match n with
  | O => (new, dst)
  | S n' =>
      let v := nth src old None in
      let src' := if (length old <=? src + 1)%nat then 0%nat else (src + 1)%nat in
      match v with
      | None => copy_cache old n' src' new dst
      | Some _ => let new' := array_set dst v new in
                  if (length new <=? dst + 1)%nat then (new', 0%nat) else copy_cache old n' src' new' (dst + 1)
      end
  end.
(** MerkleTreeAccumulator.java 265-296; the index of an existing cache is one of its indices *)
Definition ensureCache (m : jmta) : option jmta :=
  let set c i := JMta (j_height m) (j_roots m) (j_offset m) (j_rootSize m) (j_cacheSize m) c (j_allow m) i in
  if isCacheEnabled m then
    let n := Z.to_nat (num (j_cacheSize m)) in
    match j_cache m with
    | None => Some (set (Some (repeat None n)) (Some 0))
    | Some c =>
        if (length c =? n)%nat then Some m
        else match j_cacheIdx m with
             | Some i => let y := copy_cache c (length c) (Z.to_nat i) (repeat None n) 0 in Some (set (Some (fst y)) (Some (Z.of_nat (snd y))))
             | None => None
             end
    end
  else Some (set None (j_cacheIdx m)).
End MTA.

(** BTPMessageVerifier.java 48-53 *)
Definition new_mta (offset : Z) : jmta := JMta offset [] offset None None None None None.
