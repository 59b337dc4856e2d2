(** * The configuration page as it arrives: json.NewDecoder(resp.Body).Decode
    (cmd/client/main.go:54-55).

    Main.v gives the client the whole body of /config; here is the Decoder of
    encoding/json (Go 1.16), which scans each piece as it arrives and stops at
    the end of the first value. *)
From Verif Require Import Base Common Oprf Client Json ConfigJson Demo Main ReadBody.
Local Open Scope N_scope.

(** ** encoding/json/scanner.go.  What the parser is in the middle of
    (parseObjectKey, parseObjectValue, parseArrayValue). *)
Inductive pstate := ObjKey | ObjVal | ArrVal.
(** The step functions.  [Lit r]: a literal of which [r] is still to come
    (stateT, stateTr, ..., stateNul).  stateEndTop is not among them: it is entered
    from stateEndValue when nothing is open, and then stateEndValue with an empty
    stack does what it does. *)
Inductive sstate :=
| BeginValueOrEmpty | BeginValue | BeginStringOrEmpty | BeginString | EndValue
| InString | InStringEsc | EscU | EscU1 | EscU12 | EscU123
| Neg | One | Zero | Dot | Dot0 | Ex | ESign | E0
| Lit (r : bytes).
Definition scanner := (sstate * list pstate)%type.
(** What a step returns: an error, scanEnd, scanEndObject or scanEndArray, or
    something else. *)
Inductive stepped := Go (s : scanner) | Close (s : scanner) | End | Bad.

(** stateEndValue, stateEndTop, popParseState *)
Definition step_end (st : list pstate) (c : byte) : stepped :=
  match st with
  | [] => End
  | ps :: below =>
      if is_ws c then Go (EndValue, st)
      else match ps with
           | ObjKey => if bN c =? 58 then Go (BeginValue, ObjVal :: below) else Bad
           | ObjVal => if bN c =? 44 then Go (BeginString, ObjKey :: below)
                       else if bN c =? 125 then Close (EndValue, below) else Bad
           | ArrVal => if bN c =? 44 then Go (BeginValue, st)
                       else if bN c =? 93 then Close (EndValue, below) else Bad
           end
  end.
(** pushParseState *)
Definition push (st : list pstate) (ps : pstate) (next : sstate) : stepped :=
  if (N.of_nat (S (length st)) <=? maxNestingDepth) then Go (next, ps :: st) else Bad.
(** stateBeginValue *)
Definition step_value (st : list pstate) (c : byte) : stepped :=
  if is_ws c then Go (BeginValue, st)
  else if bN c =? 123 then push st ObjKey BeginStringOrEmpty
  else if bN c =? 91 then push st ArrVal BeginValueOrEmpty
  else if bN c =? 34 then Go (InString, st)
  else if bN c =? 45 then Go (Neg, st)
  else if bN c =? 48 then Go (Zero, st)
  else if bN c =? 116 then Go (Lit (str "rue"), st)
  else if bN c =? 102 then Go (Lit (str "alse"), st)
  else if bN c =? 110 then Go (Lit (str "ull"), st)
  else if is_digit c then Go (One, st)
  else Bad.
(** stateBeginString *)
Definition step_string (st : list pstate) (c : byte) : stepped :=
  if is_ws c then Go (BeginString, st)
  else if bN c =? 34 then Go (InString, st)
  else Bad.
(** state0 *)
Definition step_zero (st : list pstate) (c : byte) : stepped :=
  if bN c =? 46 then Go (Dot, st)
  else if (bN c =? 101) || (bN c =? 69) then Go (Ex, st)
  else step_end st c.
Definition step_hex (next : sstate) (st : list pstate) (c : byte) : stepped :=
  match hexd c with Some _ => Go (next, st) | None => Bad end.

Definition step (s : scanner) (c : byte) : stepped :=
  let (f, st) := s in
  match f with
  | BeginValueOrEmpty => if is_ws c then Go s else if bN c =? 93 then step_end st c else step_value st c
  | BeginValue => step_value st c
  | BeginStringOrEmpty =>
      if is_ws c then Go s
      else if bN c =? 125 then step_end (match st with [] => [] | _ :: below => ObjVal :: below end) c
      else step_string st c
  | BeginString => step_string st c
  | EndValue => step_end st c
  | InString => if bN c =? 34 then Go (EndValue, st) else if bN c =? 92 then Go (InStringEsc, st)
                else if bN c <? 32 then Bad else Go s
  | InStringEsc => if existsb (fun x => bN c =? bN x) (str "bfnrt\/""") then Go (InString, st)
                   else if bN c =? 117 then Go (EscU, st) else Bad
  | EscU => step_hex EscU1 st c
  | EscU1 => step_hex EscU12 st c
  | EscU12 => step_hex EscU123 st c
  | EscU123 => step_hex InString st c
  | Neg => if bN c =? 48 then Go (Zero, st) else if is_digit c then Go (One, st) else Bad
  | One => if is_digit c then Go s else step_zero st c
  | Zero => step_zero st c
  | Dot => if is_digit c then Go (Dot0, st) else Bad
  | Dot0 => if is_digit c then Go s else if (bN c =? 101) || (bN c =? 69) then Go (Ex, st) else step_end st c
  | Ex => if (bN c =? 43) || (bN c =? 45) then Go (ESign, st) else if is_digit c then Go (E0, st) else Bad
  | ESign => if is_digit c then Go (E0, st) else Bad
  | E0 => if is_digit c then Go s else step_end st c
  | Lit [] => Bad
  | Lit (x :: r) => if bN c =? bN x then Go (match r with [] => EndValue | _ => Lit r end, st) else Bad
  end.

(** ** encoding/json/stream.go.  The scan of what is in the buffer
    (Decoder.readValue): the value ends after [n] bytes, there is an error, or
    the buffer has been used up. *)
Inductive scanned := Value (n : nat) | Partial (s : scanner) | Wrong.
Fixpoint scan (s : scanner) (b : bytes) : scanned :=
  match b with
  | [] => Partial s
  | c :: r =>
      let more s' := match scan s' r with Value n => Value (S n) | x => x end in
      match step s c with
      | Bad => Wrong
      | End => Value 0
      | Close (f, []) => Value 1
      | Close s' | Go s' => more s'
      end
  end.

(** Decode(&cfg) into a fresh Config: what it has returned after at most [k]
    reads; [None] while it is waiting for the next.  [i] reads were made, [buf] is
    what they brought.  A read brings a piece of the stream (a shorter read is
    a stream of shorter pieces). *)
Fixpoint decode_loop (k i : nat) (s : stream) (buf : bytes) (sc : scanner) : option (res Config) :=
  match k with
  | O => None
  | S k =>
      let buf' := buf ++ a_data (s i) in
      match scan sc (a_data (s i)) with
      | Wrong => Some (Err "invalid character")
      | Value m => Some (Config_decode 64 (firstn (length buf + m) buf'))
      | Partial sc' =>
          match a_end (s i) with
          | None => decode_loop k (S i) s buf' sc'
          | Some (Failed e) => Some (Err e)
          | Some EOF =>
              match step sc' Byte.x20 with
              | End => Some (Config_decode 64 buf')
              | _ => Some (Err (if forallb is_ws buf' then "EOF" else "unexpected EOF"))
              end
          end
      end
  end.
Definition Decode (k : nat) (s : stream) : option (res Config) := decode_loop k 0 s [] (BeginValue, []).

(** cmd/client/main.go:36-58 when the body of /config arrives piece by piece and
    [k] reads of it were made: [None], the client is waiting. *)
Definition client_config_read (k : nat) (o : client_opts) (fs : files) (get : bytes -> res (N * stream)) : option (res Config) :=
  match co_config o with
  | [] =>
      match get (co_target o ++ str "/config") with
      | Err e => Some (Err e) | Panic m => Some (Panic m)
      | Ok (code, body) =>
          if negb (code =? 200) then Some (Err "Unable to retrieve MIGP config from target")
          else Decode k body
      end
  | name =>
      match f_open fs name with
      | None => Some (Err "open")
      | Some data => Some (Config_unmarshal 64 data)
      end
  end.
