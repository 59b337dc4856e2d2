(** * Model of pkg/mutator/rdasmutator.go (rules come from [DasRules.v]). *)
From Verif Require Import Base Murmur3 Utf8.

(** rdasmutator.go:31-36 *)
Record RDasRule := mkRule {
  RuleType : bytes;
  Position : Z;
  String1 : bytes;
  String2 : bytes }.

(** unicode.IsLetter / IsUpper / IsLower on the runes 0..255 (Latin-1 table of
    package unicode): 0xAA and 0xBA are letters that are neither. *)
Definition is_upper (r : N) : bool :=
  ((65 <=? r) && (r <=? 90) || (192 <=? r) && (r <=? 214) || (216 <=? r) && (r <=? 222))%N.
Definition is_lower (r : N) : bool :=
  ((97 <=? r) && (r <=? 122) || (r =? 181) || (223 <=? r) && (r <=? 246)
   || (248 <=? r) && (r <=? 255))%N.
Definition is_letter (r : N) : bool :=
  (is_upper r || is_lower r || (r =? 170) || (r =? 186))%N.

(** unicode.ToLower / ToUpper on the runes 0..255 (CaseRanges): the upper case
    of U+00B5 is U+039C, of U+00FF is U+0178, U+00DF has none. *)
Definition to_lower (r : N) : N := (if is_upper r then r + 32 else r)%N.
Definition to_upper (r : N) : N :=
  (if r =? 181 then 924 else if r =? 255 then 376 else if r =? 223 then 223
   else if is_lower r then r - 32 else r)%N.

(** rdasmutator.go:53-65.  [byte(...)] truncates. *)
Definition switchCase (b : byte) : res byte :=
  let r := bN b in
  if is_letter r then
    if is_upper r then Ok (nB (to_lower r))
    else if is_lower r then Ok (nB (to_upper r))
    else Err "invalid rune"
  else Err "not a letter".

(** [newBuf[i] = b] on a copy. *)
Fixpoint set_nth (i : nat) (b : byte) (l : bytes) : bytes :=
  match l, i with
  | [], _ => []
  | _ :: r, O => b :: r
  | x :: r, S i' => x :: set_nth i' b r
  end.

(** rdasmutator.go:116-128 *)
Definition changeCap (oldBuf : bytes) (position : Z) : bytes :=
  let position := (if position <? 0 then blen oldBuf + position else position)%Z in
  if (0 <=? position)%Z && (position <? blen oldBuf)%Z then
    match switchCase (nth (Z.to_nat position) oldBuf Byte.x00) with
    | Ok b => set_nth (Z.to_nat position) b oldBuf
    | _ => oldBuf
    end
  else oldBuf.

(** rdasmutator.go:131-144 *)
Definition deletePortion (oldBuf : bytes) (position : Z) : bytes :=
  if (0 <=? position)%Z && (position <=? blen oldBuf)%Z
  then skipn (Z.to_nat position) oldBuf
  else if (position <? 0)%Z && (0 <=? blen oldBuf + position)%Z
  then firstn (Z.to_nat (blen oldBuf + position)) oldBuf
  else oldBuf.

(** rdasmutator.go:148-168 *)
Definition insert (oldBuf : bytes) (position : Z) (string1 : bytes) : bytes :=
  if (blen oldBuf =? 0)%Z && ((position =? 0)%Z || (position =? -1)%Z)
  then string1
  else
    let position := (if position <? 0 then position + blen oldBuf + 1 else position)%Z in
    if (0 <=? position)%Z && (position <=? blen oldBuf)%Z
    then firstn (Z.to_nat position) oldBuf ++ string1 ++ skipn (Z.to_nat position) oldBuf
    else oldBuf.

(** Is [p] a prefix of [s]? *)
Fixpoint prefixb (p s : bytes) : bool :=
  match p, s with
  | [], _ => true
  | x :: p', y :: s' => beqb x y && prefixb p' s'
  | _, _ => false
  end.

(** bytes.ReplaceAll(s, old, new) for a non-empty [old]: leftmost,
    non-overlapping occurrences; [skip] bytes of a match are still to be
    dropped. *)
Fixpoint replace_ne (skip : nat) (old new s : bytes) : bytes :=
  match s with
  | [] => []
  | c :: r =>
      match skip with
      | S k => replace_ne k old new r
      | O => if prefixb old s then new ++ replace_ne (length old - 1) old new r
             else c :: replace_ne 0 old new r
      end
  end.

(** bytes.ReplaceAll for an empty [old]: [new] goes before every rune and at
    the end; [skip] bytes of the current rune are still to be copied. *)
Fixpoint replace_empty (skip : nat) (new s : bytes) : bytes :=
  match s with
  | [] => new
  | c :: r =>
      match skip with
      | S k => c :: replace_empty k new r
      | O => new ++ c :: replace_empty (rune_width s - 1) new r
      end
  end.

Definition replace_all (s old new : bytes) : bytes :=
  match old with
  | [] => replace_empty 0 new s
  | _ => replace_ne 0 old new s
  end.

(** rdasmutator.go:172-174 *)
Definition substitute (buf : bytes) (_ : Z) (string1 string2 : bytes) : bytes :=
  replace_all buf string1 string2.

(** rdasmutator.go:91-102: the image of a password under one rule. *)
Definition apply_rule (rule : RDasRule) (s : bytes) : res bytes :=
  let position := Position rule in
  if bytes_eqb (RuleType rule) (str "c") then Ok (changeCap s position)
  else if bytes_eqb (RuleType rule) (str "d") then Ok (deletePortion s position)
  else if bytes_eqb (RuleType rule) (str "i") then Ok (insert s position (String1 rule))
  else if bytes_eqb (RuleType rule) (str "s")
  then Ok (substitute s position (String1 rule) (String2 rule))
  else Panic "One of the dasRules unrecognized".

(** Is a murmur3 key in the [seen] map? *)
Definition seenb (key : N) (seen : list N) : bool := existsb (N.eqb key) seen.

(** rdasmutator.go:79-110: the loop; [j] counts the mutations found. *)
Fixpoint mutate_loop (rules : list RDasRule) (password : bytes) (num j : Z)
    (seen : list N) (mutations : list bytes) : res (list bytes) :=
  match rules with
  | [] => Ok mutations
  | rule :: rest =>
      if (j <? num)%Z then
        s <- apply_rule rule password ;;
        let key := murmur3_sum32 s in
        if seenb key seen
        then mutate_loop rest password num j seen mutations
        else mutate_loop rest password num (j + 1) (key :: seen) (mutations ++ [s])
      else Ok mutations
  end.

(** rdasmutator.go:70-112.  [make([][]byte, 0, num)] panics for a negative
    capacity or one above the address space (24-byte elements, 2^48 bytes on
    64-bit Linux); running out of physical memory below that is not modelled. *)
Definition Mutate (dasRules : list RDasRule) (password : bytes) (num : Z) : res (list bytes) :=
  match dasRules with
  | [] => Panic "RDasMutator used without being initialized"
  | _ =>
      if (num <? 0)%Z || (2 ^ 48 <? num * 24)%Z then Panic "makeslice: cap out of range"
      else mutate_loop dasRules password num 0 [murmur3_sum32 password] []
  end.
