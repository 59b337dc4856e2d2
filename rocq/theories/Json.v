(** * encoding/json: syntax (Unmarshal's checkValid pass and value tree),
    string quoting, and the field decoding rules for the types the repository
    uses.  The callers are pkg/migp/client.go:168, pkg/migp/server.go:47-70,
    cmd/server/main.go:44,53, cmd/server/server.go:98,114,
    cmd/client/main.go:41,55,61,99 and pkg/mutator/rdasmutator.go:45. *)
From Verif Require Import Base Utf8 Base64.
Local Open Scope N_scope.

(** A parsed JSON value.  Numbers keep their literal; strings are unquoted. *)
Inductive json :=
| JNull
| JBool (b : bool)
| JNum (lit : bytes)
| JStr (s : bytes)
| JArr (l : list json)
| JObj (l : list (bytes * json)).

Definition is_ws (c : byte) : bool :=
  (bN c =? 32) || (bN c =? 9) || (bN c =? 10) || (bN c =? 13).
Fixpoint skip_ws (s : bytes) : bytes :=
  match s with
  | c :: r => if is_ws c then skip_ws r else s
  | [] => []
  end.

Definition is_digit (c : byte) : bool := (48 <=? bN c) && (bN c <=? 57).
Fixpoint span_digits (s : bytes) : bytes * bytes :=
  match s with
  | c :: r => if is_digit c then let (d, t) := span_digits r in (c :: d, t) else ([], s)
  | [] => ([], [])
  end.

(** Number literal: -? (0 | [1-9][0-9]* ) (. [0-9]+)? ([eE][+-]?[0-9]+)? *)
Definition parse_num (s : bytes) : option (bytes * bytes) :=
  let '(sign, s1) := match s with
                     | c :: r => if bN c =? 45 then ([c], r) else ([], s)
                     | [] => ([], []) end in
  let '(int, s2) := span_digits s1 in
  let int_ok := match int with
                | [] => false
                | [_] => true
                | c :: _ => negb (bN c =? 48)
                end in
  if negb int_ok then None
  else
    let frac := match s2 with
                | c :: r => if bN c =? 46
                            then let '(d, t) := span_digits r in
                                 match d with [] => None | _ => Some (c :: d, t) end
                            else Some ([], s2)
                | [] => Some ([], []) end in
    match frac with
    | None => None
    | Some (f, s3) =>
        let exp := match s3 with
                   | c :: r =>
                       if (bN c =? 101) || (bN c =? 69) then
                         let '(sg, r1) := match r with
                                          | x :: r' => if (bN x =? 43) || (bN x =? 45) then ([x], r') else ([], r)
                                          | [] => ([], []) end in
                         let '(d, t) := span_digits r1 in
                         match d with [] => None | _ => Some (c :: sg ++ d, t) end
                       else Some ([], s3)
                   | [] => Some ([], []) end in
        match exp with
        | None => None
        | Some (e, s4) => Some (sign ++ int ++ f ++ e, s4)
        end
    end.

(** Hex digit of a \u escape (either case). *)
Definition hexd (c : byte) : option N :=
  let n := bN c in
  if (48 <=? n) && (n <=? 57) then Some (n - 48)
  else if (97 <=? n) && (n <=? 102) then Some (n - 87)
  else if (65 <=? n) && (n <=? 70) then Some (n - 55)
  else None.
Definition u4 (s : bytes) : option N :=
  match s with
  | a :: b :: c :: d :: _ =>
      match hexd a, hexd b, hexd c, hexd d with
      | Some a, Some b, Some c, Some d => Some (((a * 16 + b) * 16 + c) * 16 + d)
      | _, _, _, _ => None
      end
  | _ => None
  end.
Definition is_surrogate (r : N) : bool := (55296 <=? r) && (r <=? 57343).
Definition replacement : bytes := [Byte.xef; Byte.xbf; Byte.xbd].

(** One unit of a string literal (not a quote): the bytes it stands for and
    how many bytes of the literal it takes. *)
Definition str_unit (s : bytes) : option (bytes * nat) :=
  match s with
  | [] => None
  | c :: r =>
      if bN c <? 32 then None
      else if bN c =? 92 then
        match r with
        | [] => None
        | e :: r' =>
            if (bN e =? 34) || (bN e =? 92) || (bN e =? 47) then Some ([e], 2%nat)
            else if bN e =? 98 then Some ([Byte.x08], 2%nat)
            else if bN e =? 102 then Some ([Byte.x0c], 2%nat)
            else if bN e =? 110 then Some ([Byte.x0a], 2%nat)
            else if bN e =? 114 then Some ([Byte.x0d], 2%nat)
            else if bN e =? 116 then Some ([Byte.x09], 2%nat)
            else if bN e =? 117 then
              match u4 r' with
              | None => None
              | Some u =>
                  if is_surrogate u then
                    match skipn 4 r' with
                    | b1 :: b2 :: r'' =>
                        if (bN b1 =? 92) && (bN b2 =? 117) then
                          match u4 r'' with
                          | Some v =>
                              if (u <? 56320) && (56320 <=? v) && (v <? 57344)
                              then Some (encode_rune ((u - 55296) * 1024 + (v - 56320) + 65536), 12%nat)
                              else Some (replacement, 6%nat)
                          | None => Some (replacement, 6%nat)
                          end
                        else Some (replacement, 6%nat)
                    | _ => Some (replacement, 6%nat)
                    end
                  else Some (encode_rune u, 6%nat)
              end
            else None
        end
      else if bN c <? 128 then Some ([c], 1%nat)
      else match decode_rune s with
           | Some (_, w) => Some (firstn w s, w)
           | None => Some (replacement, 1%nat)
           end
  end.

(** String literal after the opening quote: contents and what follows. *)
Fixpoint parse_str (skip : nat) (s : bytes) : option (bytes * bytes) :=
  match s with
  | [] => None
  | c :: r =>
      match skip with
      | S k => parse_str k r
      | O =>
          if bN c =? 34 then Some ([], r)
          else match str_unit s with
               | None => None
               | Some (out, w) =>
                   match parse_str (w - 1) r with
                   | Some (o, rest) => Some (out ++ o, rest)
                   | None => None
                   end
               end
      end
  end.

Definition strip (p s : bytes) : option bytes :=
  (fix go (p s : bytes) := match p, s with
     | [], _ => Some s
     | x :: p', y :: s' => if beqb x y then go p' s' else None
     | _, _ => None
     end) p s.

(** Go refuses nesting deeper than this. *)
Definition maxNestingDepth : N := 10000.

(** Value, array elements after the first bracket or comma, object members.
    [fuel] bounds the number of nested calls; [json_parse] supplies enough. *)
Fixpoint parse_value (fuel : nat) (depth : N) (s : bytes) : option (json * bytes) :=
  match fuel with
  | O => None
  | S fuel' =>
      match skip_ws s with
      | [] => None
      | c :: r =>
          if bN c =? 123 then (* { *)
            if maxNestingDepth <=? depth then None else
            match skip_ws r with
            | c' :: r' => if bN c' =? 125 then Some (JObj [], r')
                          else match parse_members fuel' (depth + 1) r with
                               | Some (ms, t) => Some (JObj ms, t)
                               | None => None end
            | [] => None
            end
          else if bN c =? 91 then (* [ *)
            if maxNestingDepth <=? depth then None else
            match skip_ws r with
            | c' :: r' => if bN c' =? 93 then Some (JArr [], r')
                          else match parse_elems fuel' (depth + 1) r with
                               | Some (es, t) => Some (JArr es, t)
                               | None => None end
            | [] => None
            end
          else if bN c =? 34 then
            match parse_str 0 r with Some (x, t) => Some (JStr x, t) | None => None end
          else if (bN c =? 45) || is_digit c then
            match parse_num (c :: r) with Some (l, t) => Some (JNum l, t) | None => None end
          else match strip (str "true") (c :: r), strip (str "false") (c :: r), strip (str "null") (c :: r) with
               | Some t, _, _ => Some (JBool true, t)
               | _, Some t, _ => Some (JBool false, t)
               | _, _, Some t => Some (JNull, t)
               | _, _, _ => None
               end
      end
  end
with parse_elems (fuel : nat) (depth : N) (s : bytes) : option (list json * bytes) :=
  match fuel with
  | O => None
  | S fuel' =>
      match parse_value fuel' depth s with
      | None => None
      | Some (v, t) =>
          match skip_ws t with
          | c :: r => if bN c =? 44 then
                        match parse_elems fuel' depth r with
                        | Some (vs, t') => Some (v :: vs, t') | None => None end
                      else if bN c =? 93 then Some ([v], r) else None
          | [] => None
          end
      end
  end
with parse_members (fuel : nat) (depth : N) (s : bytes) : option (list (bytes * json) * bytes) :=
  match fuel with
  | O => None
  | S fuel' =>
      match skip_ws s with
      | q :: r0 =>
          if bN q =? 34 then
            match parse_str 0 r0 with
            | None => None
            | Some (k, t0) =>
                match skip_ws t0 with
                | c0 :: r1 =>
                    if bN c0 =? 58 then
                      match parse_value fuel' depth r1 with
                      | None => None
                      | Some (v, t) =>
                          match skip_ws t with
                          | c :: r => if bN c =? 44 then
                                        match parse_members fuel' depth r with
                                        | Some (ms, t') => Some ((k, v) :: ms, t') | None => None end
                                      else if bN c =? 125 then Some ([(k, v)], r) else None
                          | [] => None
                          end
                      end
                    else None
                | [] => None
                end
            end
          else None
      | [] => None
      end
  end.

(** A whole document. *)
Definition json_parse (s : bytes) : option json :=
  match parse_value (S (length s)) 0 s with
  | Some (v, t) => match skip_ws t with [] => Some v | _ => None end
  | None => None
  end.

(** ** Printing (json.Marshal) *)

(** Bytes that Marshal copies unescaped (htmlSafeSet): printable ASCII except
    the quote, backslash and the three HTML characters; and 0x7f. *)
Definition html_safe (c : byte) : bool :=
  let n := bN c in
  (32 <=? n) && (n <? 128)
  && negb ((n =? 34) || (n =? 92) || (n =? 60) || (n =? 62) || (n =? 38)).

Definition hexlow (n : N) : byte := if n <? 10 then nB (48 + n) else nB (87 + n).

(** Escape of one ASCII byte that is not safe. *)
Definition esc_ascii (c : byte) : bytes :=
  let n := bN c in
  if (n =? 34) || (n =? 92) then [Byte.x5c; c]
  else if n =? 10 then str "\n"
  else if n =? 13 then str "\r"
  else if n =? 9 then str "\t"
  else str "\u00" ++ [hexlow (n / 16); hexlow (n mod 16)].

(** Contents of a quoted string; [skip] bytes of the current rune are already
    written.  U+2028 and U+2029 are escaped, invalid bytes become \ufffd. *)
Fixpoint quote_body (skip : nat) (s : bytes) : bytes :=
  match s with
  | [] => []
  | c :: r =>
      match skip with
      | S k => quote_body k r
      | O =>
          if bN c <? 128 then
            (if html_safe c then [c] else esc_ascii c) ++ quote_body 0 r
          else match decode_rune s with
               | None => str "\ufffd" ++ quote_body 0 r
               | Some (u, w) =>
                   (if (u =? 8232) || (u =? 8233) then str "\u202" ++ [hexlow (u mod 16)]
                    else firstn w s) ++ quote_body (w - 1) r
               end
      end
  end.
Definition json_quote (s : bytes) : bytes := Byte.x22 :: quote_body 0 s ++ [Byte.x22].

(** Decimal digits of a natural number (strconv.AppendUint). *)
Fixpoint uint_bytes (d : Decimal.uint) : bytes :=
  match d with
  | Decimal.Nil => []
  | Decimal.D0 d => Byte.x30 :: uint_bytes d
  | Decimal.D1 d => Byte.x31 :: uint_bytes d
  | Decimal.D2 d => Byte.x32 :: uint_bytes d
  | Decimal.D3 d => Byte.x33 :: uint_bytes d
  | Decimal.D4 d => Byte.x34 :: uint_bytes d
  | Decimal.D5 d => Byte.x35 :: uint_bytes d
  | Decimal.D6 d => Byte.x36 :: uint_bytes d
  | Decimal.D7 d => Byte.x37 :: uint_bytes d
  | Decimal.D8 d => Byte.x38 :: uint_bytes d
  | Decimal.D9 d => Byte.x39 :: uint_bytes d
  end.
Definition dec_N (n : N) : bytes := uint_bytes (N.to_uint n).
Definition dec_Z (z : Z) : bytes :=
  if (z <? 0)%Z then Byte.x2d :: dec_N (Z.to_N (- z)) else dec_N (Z.to_N z).

(** []byte: null when nil, else base64. *)
Definition json_bytes (s : gslice) : bytes :=
  match s with None => str "null" | Some b => json_quote (b64_encode b) end.

(** A struct: the encoded fields in order. *)
Fixpoint json_fields (fs : list (bytes * bytes)) : bytes :=
  match fs with
  | [] => []
  | [(k, v)] => json_quote k ++ Byte.x3a :: v
  | (k, v) :: r => json_quote k ++ Byte.x3a :: v ++ Byte.x2c :: json_fields r
  end.
Definition json_struct (fs : list (bytes * bytes)) : bytes := Byte.x7b :: json_fields fs ++ [Byte.x7d].

(** ** Decoding into Go values (json.Unmarshal) *)

(** Value of a string of decimal digits. *)
Definition digits_val (s : bytes) : N :=
  fold_left (fun acc c => acc * 10 + (bN c - 48)) s 0.
Definition all_digits (s : bytes) : bool :=
  match s with [] => false | _ => forallb is_digit s end.

(** strconv.ParseUint on a number literal, within [bits] bits. *)
Definition parse_uint (bits : N) (lit : bytes) : option N :=
  if all_digits lit then
    let n := digits_val lit in
    if n <? 2 ^ bits then Some n else None
  else None.
(** strconv.ParseInt on a number literal, within an int of [iw] bits. *)
Definition parse_int (iw : Z) (lit : bytes) : option Z :=
  let mk z := if (- 2 ^ (iw - 1) <=? z)%Z && (z <? 2 ^ (iw - 1))%Z then Some z else None in
  match lit with
  | c :: r =>
      if bN c =? 45 then (if all_digits r then mk (- Z.of_N (digits_val r))%Z else None)
      else if all_digits lit then mk (Z.of_N (digits_val lit)) else None
  | [] => None
  end.

(** Case-insensitive key comparison of encoding/json (equalFoldRight): ASCII
    letters fold, and s/k also match U+017F / U+212A. *)
Definition ascii_fold_eq (a b : byte) : bool :=
  let up c := if (97 <=? bN c) && (bN c <=? 122) then bN c - 32 else bN c in
  up a =? up b.
Definition fold_special (c : byte) (u : N) : bool :=
  let n := bN c in
  (((n =? 115) || (n =? 83)) && (u =? 383)) || (((n =? 107) || (n =? 75)) && (u =? 8490)).
Fixpoint fold_eq (name key : bytes) : bool :=
  match name with
  | [] => match key with [] => true | _ => false end
  | c :: name' =>
      match key with
      | [] => false
      | d :: key' =>
          if bN d <? 128 then ascii_fold_eq c d && fold_eq name' key'
          else match decode_rune key with
               | Some (u, w) => fold_special c u && fold_eq name' (skipn w key)
               | None => false
               end
      end
  end.

(** Index of the struct field a key addresses: an exact match, else the first
    case-insensitive match. *)
Fixpoint index_of (f : bytes -> bool) (names : list bytes) (i : nat) : option nat :=
  match names with
  | [] => None
  | n :: r => if f n then Some i else index_of f r (S i)
  end.
Definition find_field (names : list bytes) (key : bytes) : option nat :=
  match index_of (fun n => bytes_eqb n key) names 0 with
  | Some i => Some i
  | None => index_of (fun n => fold_eq n key) names 0
  end.

(** Stores of one JSON value into a field of each type: the new value, and
    whether a type error was recorded (decoding goes on after one).  null
    leaves numbers and strings unchanged and makes a slice nil. *)
Definition set_uint (bits : N) (old : N) (j : json) : N * bool :=
  match j with
  | JNull => (old, false)
  | JNum l => match parse_uint bits l with Some n => (n, false) | None => (old, true) end
  | _ => (old, true)
  end.
Definition set_int (iw : Z) (old : Z) (j : json) : Z * bool :=
  match j with
  | JNull => (old, false)
  | JNum l => match parse_int iw l with Some n => (n, false) | None => (old, true) end
  | _ => (old, true)
  end.
Definition set_string (old : bytes) (j : json) : bytes * bool :=
  match j with
  | JNull => (old, false)
  | JStr s => (s, false)
  | _ => (old, true)
  end.
(** A byte slice during decoding: the slice, and the bytes that lie behind its
    end in the same array.  An array is decoded element by element into the
    memory of the old slice, so null and ill-typed elements keep what lies
    there (decode.go, func array; growing the slice copies it and fills up with
    zeros, so the capacity does not matter). *)
Definition buf : Type := gslice * bytes.
Fixpoint set_elems (mem : bytes) (l : list json) : bytes * bool :=
  match l with
  | [] => ([], false)
  | x :: r =>
      let (n, e) := set_uint 8 (match mem with c :: _ => bN c | [] => 0 end) x in
      let (bs, e') := set_elems (tl mem) r in
      (nB n :: bs, e || e')
  end.
Definition set_bytes (old : buf) (j : json) : buf * bool :=
  match j with
  | JNull => ((None, []), false)
  | JStr s => match b64_decode s with Some b => ((Some b, []), false) | None => (old, true) end
  | JArr [] => ((Some [], []), false)
  | JArr l =>
      let mem := sl (fst old) ++ snd old in
      let (bs, e) := set_elems mem l in
      ((Some bs, skipn (length l) mem), e)
  | _ => (old, true)
  end.

(** Decoding of an object into a struct: members in order, [set i] stores
    into field [i]; keys that match no field are ignored. *)
Fixpoint decode_members {A} (names : list bytes) (set : nat -> A -> json -> A * bool)
    (a : A) (err : bool) (ms : list (bytes * json)) : A * bool :=
  match ms with
  | [] => (a, err)
  | (k, v) :: r =>
      match find_field names k with
      | None => decode_members names set a err r
      | Some i => let (a', e) := set i a v in decode_members names set a' (err || e) r
      end
  end.

(** json.Unmarshal(data, &a) for a struct: the struct afterwards and the
    error, if any.  A syntax error leaves the struct untouched. *)
Definition unmarshal_struct {A} (names : list bytes) (set : nat -> A -> json -> A * bool)
    (a : A) (data : bytes) : A * option string :=
  match json_parse data with
  | None => (a, Some "json: syntax error"%string)
  | Some (JObj ms) =>
      let (a', e) := decode_members names set a false ms in
      (a', if e then Some "json: cannot unmarshal"%string else None)
  | Some JNull => (a, None)
  | Some _ => (a, Some "json: cannot unmarshal"%string)
  end.
