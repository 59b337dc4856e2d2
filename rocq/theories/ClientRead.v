(** * The client program on a network whose bodies arrive piece by piece
    (cmd/client/main.go:23-117): ReadConfig.v for /config, ReadBody.v for the
    queries, in the program of Main.v. *)
From Verif Require Import Base Common Oprf Client KV Mutator Json ConfigJson Scanner Demo Flags Main ReadBody ReadConfig.

(** What http.Get and http.DefaultClient.Do return: an error, or a status and a
    body that is still to be read. *)
Record network_s := mkNetworkS { ns_get : bytes -> res (N * stream); ns_post : transport_s }.

(** The program as it stands: what it has written to standard output, and its
    exit status, if it has ended. *)
Record client_state := mkClientState { now_exit : option N; now_stdout : bytes }.
Definition over_with (r : client_result) : client_state := mkClientState (Some (x_status r)) (x_stdout r).

Section ClientRead.
Variable grow : nat -> nat.
Variable LIB : OPRF.

(** main.go:77-116.  [k] bounds the rounds of each body's reading.  The input is
    there as a whole (ScanCode.v has it piece by piece). *)
Definition client_query_read (k : nat) (o : client_opts) (fs : files) (post : transport_s) (cfg : Config) (blinds : nat -> Blind LIB) : client_state :=
  match input_of fs (co_infile o) with
  | None => mkClientState (Some 1%N) []
  | Some input =>
      let (out, last) := client_lines_read (fun i u p => Query_read grow k cfg post (co_target o ++ str "/evaluate") u p (blinds i)) (co_show o) 0 (scan_lines input) in
      mkClientState (match last with
                     | None => None
                     | Some (_, true) => Some 2%N
                     | Some (Some _, false) => Some 1%N
                     | Some (None, false) => Some 0%N
                     end) (println out)
  end.

(** main.go:23-117 after flag parsing. *)
Definition client_body_read (k : nat) (o : client_opts) (fs : files) (net : network_s) (blinds : nat -> Blind LIB) : client_state :=
  match client_config_read k o fs (ns_get net) with
  | None => mkClientState None []
  | Some (Err _) => mkClientState (Some 1%N) []
  | Some (Panic _) => mkClientState (Some 2%N) []
  | Some (Ok cfg) =>
      if co_dump o then mkClientState (Some 0%N) (Config_marshal cfg)
      else client_query_read k o fs (ns_post net) cfg blinds
  end.

(** main.go:23-117 *)
Definition client_program_read (k : nat) (args : list bytes) (fs : files) (net : network_s) (blinds : nat -> Blind LIB) : client_state :=
  match client_flags args with
  | FHelp => mkClientState (Some 0%N) []
  | FBad => mkClientState (Some 2%N) []
  | FParsed o => client_body_read k o fs net blinds
  end.
End ClientRead.
Arguments client_query_read _ {LIB} _ _ _ _ _ _. Arguments client_body_read _ {LIB} _ _ _ _ _. Arguments client_program_read _ {LIB} _ _ _ _ _.
