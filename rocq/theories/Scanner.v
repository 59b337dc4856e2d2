(** * Line reading: bufio.Scanner with ScanLines, and bytes.SplitN(line, ":", 2),
    used by cmd/server/main.go:79-86 and cmd/client/main.go:84-90.
    Read errors of the underlying file are not modelled. *)
From Verif Require Import Base.

(** bufio.MaxScanTokenSize *)
Definition maxTokenSize : N := 65536.

(** The raw lines terminated by LF, and the bytes after the last LF. *)
Fixpoint split_lf (s : bytes) : list bytes * bytes :=
  match s with
  | [] => ([], [])
  | c :: r =>
      let (ls, t) := split_lf r in
      if beqb c Byte.x0a then ([] :: ls, t)
      else match ls with
           | [] => ([], c :: t)
           | l :: ls' => ((c :: l) :: ls', t)
           end
  end.

(** dropCR of bufio/scan.go *)
Definition drop_cr (l : bytes) : bytes :=
  match rev l with
  | c :: r => if beqb c Byte.x0d then rev r else l
  | [] => []
  end.

(** A line fits when it and its LF fit the 65536-byte buffer. *)
Definition fits (l : bytes) : bool := (N.of_nat (length l) <? maxTokenSize)%N.

(** The tokens Scan returns before it stops: at the end of input, or (without
    a token) at the first line that does not fit the buffer. *)
Fixpoint scan_complete (ls : list bytes) (last : bytes) : list bytes :=
  match ls with
  | [] => match last with
          | [] => []
          | _ => if fits last then [drop_cr last] else []
          end
  | l :: r => if fits l then drop_cr l :: scan_complete r last else []
  end.
Definition scan_lines (input : bytes) : list bytes :=
  let (ls, t) := split_lf input in scan_complete ls t.

(** bytes.SplitN(line, []byte(":"), 2): [None] when there is no colon (one
    field), otherwise the two fields. *)
Fixpoint split_colon (line : bytes) : option (bytes * bytes) :=
  match line with
  | [] => None
  | c :: r =>
      if beqb c Byte.x3a then Some ([], r)
      else match split_colon r with
           | Some (u, p) => Some (c :: u, p)
           | None => None
           end
  end.
