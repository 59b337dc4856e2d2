(** * Model of the parts of Go's [flag] and [strconv] packages that both
    commands call through flag.StringVar/BoolVar/IntVar and flag.Parse
    (cmd/server/main.go:28-36, cmd/client/main.go:28-34). *)
From Verif Require Import Base.

(** ** strconv.ParseBool (flag.boolValue.Set). *)
Definition ParseBool (s : bytes) : option bool :=
  if existsb (bytes_eqb s) (map str ["1"; "t"; "T"; "true"; "TRUE"; "True"]%string) then Some true
  else if existsb (bytes_eqb s) (map str ["0"; "f"; "F"; "false"; "FALSE"; "False"]%string) then Some false
  else None.

(** ** strconv.ParseInt(s, 0, 64) (flag.intValue.Set on a 64-bit machine). *)

(** ASCII letters to lower case, as strconv's lower. *)
Definition lower (c : byte) : N := N.lor (bN c) 32.

(** The value of a digit; letters count from 10. *)
Definition digit_val (c : byte) : option N :=
  let n := bN c in
  if (48 <=? n)%N && (n <=? 57)%N then Some (n - 48)%N
  else if (97 <=? lower c)%N && (lower c <=? 122)%N then Some (lower c - 87)%N
  else None.

(** The digit loop of ParseUint: the number and whether a '_' was seen.  The
    real loop stops at the first value above 2^64 - 1 with a range error; the
    caller refuses all values above 2^63 anyway. *)
Fixpoint uint_digits (base : N) (acc : N) (under : bool) (s : bytes) : option (N * bool) :=
  match s with
  | [] => Some (acc, under)
  | c :: r =>
      if beqb c Byte.x5f then uint_digits base acc true r
      else match digit_val c with
           | Some d => if (d <? base)%N then uint_digits base (acc * base + d)%N under r else None
           | None => None
           end
  end.

(** The base and the digits, from the prefix. *)
Definition base_of (s : bytes) : N * bytes :=
  match s with
  | c0 :: ((c1 :: _ :: _) as r) =>
      if beqb c0 Byte.x30 then
        match r with
        | _ :: r2 =>
          if (lower c1 =? 98)%N then (2%N, r2)
          else if (lower c1 =? 111)%N then (8%N, r2)
          else if (lower c1 =? 120)%N then (16%N, r2)
          else (8%N, r)
        | [] => (8%N, r)
        end
      else (10%N, s)
  | c0 :: r => if beqb c0 Byte.x30 then (8%N, r) else (10%N, s)
  | [] => (10%N, s)
  end.

(** strconv.underscoreOK: an underscore only between digits, or between the
    base prefix and a digit.  [seen]: 0 nothing, 1 digit, 2 underscore, 3
    other. *)
Fixpoint underscore_loop (hex : bool) (seen : nat) (s : bytes) : bool :=
  match s with
  | [] => negb (seen =? 2)%nat
  | c :: r =>
      if ((48 <=? bN c)%N && (bN c <=? 57)%N) || (hex && (97 <=? lower c)%N && (lower c <=? 102)%N)
      then underscore_loop hex 1 r
      else if beqb c Byte.x5f then if (seen =? 1)%nat then underscore_loop hex 2 r else false
      else if (seen =? 2)%nat then false else underscore_loop hex 3 r
  end.
Definition underscore_ok (s : bytes) : bool :=
  match s with
  | c0 :: c1 :: r =>
      if beqb c0 Byte.x30 && ((lower c1 =? 98)%N || (lower c1 =? 111)%N || (lower c1 =? 120)%N)
      then underscore_loop (lower c1 =? 120)%N 1 r
      else underscore_loop false 0 s
  | _ => underscore_loop false 0 s
  end.

(** strconv.ParseUint(s, 0, 64), without the range check. *)
Definition ParseUint (s : bytes) : option N :=
  match s with
  | [] => None
  | _ =>
      let (base, digits) := base_of s in
      match uint_digits base 0 false digits with
      | None => None
      | Some (n, under) => if under && negb (underscore_ok s) then None else Some n
      end
  end.

Definition ParseInt (s : bytes) : option Z :=
  let (neg, digits) := match s with
                       | c :: r => if beqb c Byte.x2b then (false, r) else if beqb c Byte.x2d then (true, r) else (false, s)
                       | [] => (false, s)
                       end in
  match ParseUint digits with
  | None => None
  | Some n =>
      if neg then (if (2 ^ 63 <? n)%N then None else Some (- Z.of_N n)%Z)
      else (if (2 ^ 63 <=? n)%N then None else Some (Z.of_N n))
  end.

(** ** flag.Parse (FlagSet.parseOne in a loop, ExitOnError). *)
Inductive flag_result (O : Type) : Type :=
| FParsed (o : O)      (* arguments that are left over are not looked at by either program *)
| FHelp                (* -h, -help: usage, exit status 0 *)
| FBad.                (* any error: message and usage, exit status 2 *)
Arguments FParsed {O}. Arguments FHelp {O}. Arguments FBad {O}.

(** Split "name=value" at the first '=' after the first byte. *)
Fixpoint split_eq (s : bytes) : bytes * option bytes :=
  match s with
  | [] => ([], None)
  | c :: r => if beqb c Byte.x3d then ([], Some r)
              else let (n, v) := split_eq r in (c :: n, v)
  end.
Definition split_flag (s : bytes) : bytes * option bytes :=
  match s with
  | [] => ([], None)
  | c :: r => let (n, v) := split_eq r in (c :: n, v)
  end.

(** The text of a flag after one or two dashes; [None]: not a flag, parsing
    stops here ("--" too). *)
Definition flag_text (a : bytes) : option bytes :=
  match a with
  | c :: c1 :: r1 =>
      if beqb c Byte.x2d
      then if beqb c1 Byte.x2d then match r1 with [] => None | _ => Some r1 end else Some (c1 :: r1)
      else None
  | _ => None
  end.

Section Parse.
Variable O : Type.
(** [kind n]: is [n] defined, and is it boolean; [set n v o]: Set(v), [None]
    when it returns an error. *)
Variable kind : bytes -> option bool.
Variable set : bytes -> bytes -> O -> option O.

Fixpoint parse_flags (o : O) (args : list bytes) : flag_result O :=
  match args with
  | [] => FParsed o
  | a :: rest =>
      match flag_text a with
      | None => FParsed o
      | Some name =>
          match name with
          | [] => FBad
          | c :: _ =>
              if beqb c Byte.x2d || beqb c Byte.x3d then FBad
              else
                let (n, v) := split_flag name in
                match kind n with
                | None => if bytes_eqb n (str "help") || bytes_eqb n (str "h") then FHelp else FBad
                | Some true =>
                    match set n (match v with Some x => x | None => str "true" end) o with
                    | Some o' => parse_flags o' rest
                    | None => FBad
                    end
                | Some false =>
                    match v with
                    | Some x => match set n x o with Some o' => parse_flags o' rest | None => FBad end
                    | None =>
                        match rest with
                        | [] => FBad
                        | x :: rest' => match set n x o with Some o' => parse_flags o' rest' | None => FBad end
                        end
                    end
                end
          end
      end
  end.
End Parse.
Arguments parse_flags {O} _ _ _ _.
