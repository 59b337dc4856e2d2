(** * bufio.Scanner as it is coded: a buffer, reads of any size, growth.

    Go's bufio/scan.go (go 1.16), which cmd/server/main.go:79-80 and
    cmd/client/main.go:84-85 use with its defaults (ScanLines, 65536 bytes).
    [Scanner.v] gives the lines as a function of the whole input; here is the
    code that computes them from a file read piece by piece.  The file is an
    *os.File, whose Read returns bytes or an error, never both. *)
From Verif Require Import Base Common Oprf Server Client KV Scanner Demo.

(** What is left of the file, how many bytes the next reads will give (a read
    gives at most what fits and what is left; when the list has ended, as much
    as possible), and the error a read returns when nothing is left: io.EOF, or
    the error of a file that cannot be read further. *)
Record reader := mkReader { r_rest : bytes; r_sizes : list nat; r_err : string }.

(** os.File.Read into [space] bytes. *)
Definition file_read (r : reader) (space : nat) : bytes * option string * reader :=
  match r_rest r with
  | [] => ([], Some (r_err r), r)
  | _ =>
      match r_sizes r with
      | [] => (firstn space (r_rest r), None, mkReader (skipn space (r_rest r)) [] (r_err r))
      | n :: more =>
          (firstn (Nat.min n space) (r_rest r), None, mkReader (skipn (Nat.min n space) (r_rest r)) more (r_err r))
      end
  end.

(** bufio.Scanner: the buffer, the part [start, end) of it that is not yet
    scanned, the error of the last read, the reader. *)
Record scanner := mkScanner { sc_buf : bytes; sc_start : nat; sc_end : nat; sc_err : option string; sc_reader : reader }.

(** bufio.NewScanner: no buffer yet. *)
Definition NewScanner (r : reader) : scanner := mkScanner [] 0 0 None r.

(** s.buf[s.start:s.end] *)
Definition sc_data (s : scanner) : bytes := firstn (sc_end s - sc_start s) (skipn (sc_start s) (sc_buf s)).

(** bytes.IndexByte(data, '\n') *)
Fixpoint index_lf (data : bytes) : option nat :=
  match data with
  | [] => None
  | c :: r => if beqb c Byte.x0a then Some 0%nat else match index_lf r with Some i => Some (S i) | None => None end
  end.

(** bufio.ScanLines: how far to advance and the token, if any. *)
Definition ScanLines (data : bytes) (atEOF : bool) : nat * option bytes :=
  match data, atEOF with
  | [], true => (0%nat, None)
  | _, _ =>
      match index_lf data with
      | Some i => (S i, Some (drop_cr (firstn i data)))
      | None => if atEOF then (length data, Some (drop_cr data)) else (0%nat, None)
      end
  end.

(** copy(dst, src) on whole buffers: the bytes of [src], then what [dst] had. *)
Definition over (dst src : bytes) : bytes := src ++ skipn (length src) dst.

(** scan.go:184-190: shift the data to the beginning of the buffer if there is
    lots of empty space or space is needed. *)
Definition sc_shift (s : scanner) : scanner :=
  if (0 <? sc_start s)%nat && ((sc_end s =? length (sc_buf s))%nat || (length (sc_buf s) / 2 <? sc_start s)%nat)
  then mkScanner (over (sc_buf s) (sc_data s)) 0 (sc_end s - sc_start s) (sc_err s) (sc_reader s)
  else s.

(** bufio.startBufSize *)
Definition startBufSize : N := 4096.

(** scan.go:191-213: when the buffer is full, double it, up to the limit;
    [None]: the line is too long, Scan returns false. *)
Definition sc_grow (s : scanner) : option scanner :=
  if (sc_end s =? length (sc_buf s))%nat then
    if (N.to_nat maxTokenSize <=? length (sc_buf s))%nat then None
    else
      let newSize := Nat.min (match (length (sc_buf s) * 2)%nat with O => N.to_nat startBufSize | n => n end) (N.to_nat maxTokenSize) in
      Some (mkScanner (over (zeros newSize) (sc_data s)) 0 (sc_end s - sc_start s) (sc_err s) (sc_reader s))
  else Some s.

(** scan.go:214-238: read until there are bytes or an error; after 100 reads
    that gave neither, io.ErrNoProgress.  [loop] counts down from 100. *)
Fixpoint sc_read (loop : nat) (s : scanner) : scanner :=
  let '(d, e, r) := file_read (sc_reader s) (length (sc_buf s) - sc_end s) in
  let s' := mkScanner (firstn (sc_end s) (sc_buf s) ++ d ++ skipn (sc_end s + length d) (sc_buf s))
              (sc_start s) (sc_end s + length d) (match e with Some m => Some m | None => sc_err s end) r in
  match e, d with
  | None, [] =>
      match loop with
      | O => mkScanner (sc_buf s') (sc_start s') (sc_end s') (Some "multiple Read calls return no data or error"%string) r
      | S loop' => sc_read loop' s'
      end
  | _, _ => s'
  end.

(** One round of the loop in Scan (scan.go:139-239): a token, or no token for
    good, or more bytes in the buffer. *)
Inductive round := RToken (t : bytes) (s : scanner) | RStop | RAgain (s : scanner).
Definition sc_round (s : scanner) : round :=
  let try := if (sc_start s <? sc_end s)%nat || (match sc_err s with Some _ => true | None => false end)
             then ScanLines (sc_data s) (match sc_err s with Some _ => true | None => false end)
             else (0%nat, None) in
  match try with
  | (n, Some t) => RToken t (mkScanner (sc_buf s) (sc_start s + n) (sc_end s) (sc_err s) (sc_reader s))
  | (n, None) =>
      let s := mkScanner (sc_buf s) (sc_start s + n) (sc_end s) (sc_err s) (sc_reader s) in
      match sc_err s with
      | Some _ => RStop
      | None =>
          match sc_grow (sc_shift s) with
          | None => RStop
          | Some s' => RAgain (sc_read 100 s')
          end
      end
  end.

(** [for scanner.Scan() { ... scanner.Bytes() ... }]: the tokens, in order, when
    the loop ends within [fuel] rounds. *)
Fixpoint scan_loop (fuel : nat) (s : scanner) : option (list bytes) :=
  match fuel with
  | O => None
  | S f =>
      match sc_round s with
      | RToken t s' => match scan_loop f s' with Some ts => Some (t :: ts) | None => None end
      | RStop => Some []
      | RAgain s' => scan_loop f s'
      end
  end.

(** The loop of the server, cmd/server/main.go:77-93, with the scanner in it. *)
Fixpoint ingest_loop {LIB} (fuel : nat) (s : Server LIB) (metadata : bytes) (numVariants : Z) (incl : bool)
    (st : ingest) (sc : scanner) : option (res ingest) :=
  match fuel with
  | O => None
  | S f =>
      match sc_round sc with
      | RStop => Some (Ok st)
      | RAgain sc' => ingest_loop f s metadata numVariants incl st sc'
      | RToken line sc' =>
          match ingest_line s metadata numVariants incl st line with
          | Ok st' => ingest_loop f s metadata numVariants incl st' sc'
          | Err e => Some (Err e)
          | Panic m => Some (Panic m)
          end
      end
  end.

(** The loop of the client, cmd/client/main.go:84-116, with the scanner in it. *)
Fixpoint client_loop (fuel : nat) (query : nat -> bytes -> bytes -> res (BreachStatus * gslice))
    (showPassword : bool) (i : nat) (sc : scanner) : option client_run :=
  match fuel with
  | O => None
  | S f =>
      match sc_round sc with
      | RStop => Some (mkClientRun [] None false)
      | RAgain sc' => client_loop f query showPassword i sc'
      | RToken line sc' =>
          match split_colon line with
          | None => client_loop f query showPassword i sc'
          | Some (username, password) =>
              match query i username password with
              | Err e => Some (mkClientRun [] (Some e) false)
              | Panic m => Some (mkClientRun [] None true)
              | Ok (status, metadata) =>
                  let password := if showPassword then password else [] in
                  match client_loop f query showPassword (S i) sc' with
                  | Some rest =>
                      Some (mkClientRun (client_output username password status metadata :: cr_stdout rest)
                                        (cr_error rest) (cr_panic rest))
                  | None => None
                  end
              end
          end
      end
  end.
