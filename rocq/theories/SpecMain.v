(** * Specification: vocabulary of the properties of the two programs. *)
From Verif Require Import Base Common Oprf Server KV Json ConfigJson SpecProtocol SpecDemo Demo Main.
From Verif Require Export SpecJson.

(** The credentials that ingesting [creds] stores, when each of them can be
    stored. *)
Definition breach_db (metadata : bytes) (numVariants : Z) (incl : bool) (creds : list (bytes * bytes)) : list cred :=
  flat_map (fun c => match password_variants (snd c) numVariants with
                     | Ok vs => insert_creds (fst c) (snd c) metadata vs incl
                     | _ => []
                     end) creds.

(** Two breach files that say the same of every user, in the same order. *)
Definition same_lines_per_user (a b : list (bytes * bytes)) : Prop :=
  forall u, filter (fun c => bytes_eqb (fst c) u) a = filter (fun c => bytes_eqb (fst c) u) b.

(** ** What one line of the client's output says. *)
Definition status_text (b : BreachStatus) : bytes :=
  match b with
  | NotInBreach => str "password not in breach"
  | InBreach => str "password in breach"
  | SimilarInBreach => str "similar password in breach"
  | UsernameInBreach => str "username in breach"
  end.
(** The members of the object: empty password and metadata are left out. *)
Definition report (username password : bytes) (status : BreachStatus) (metadata : bytes) : list (bytes * json) :=
  [(str "username", JStr username)]
  ++ match password with [] => [] | _ => [(str "password", JStr password)] end
  ++ [(str "status", JStr (status_text status))]
  ++ match metadata with [] => [] | _ => [(str "metadata", JStr metadata)] end.
(** [line] is a JSON document that reports [answer] for (u, p), in UTF-8 and
    without control characters (so without a line end). *)
Definition reports (show : bool) (u p : bytes) (answer : BreachStatus * gslice) (line : bytes) : Prop :=
  exists u' p' m', readable u u' /\ readable (if show then p else []) p' /\ readable (sl (snd answer)) m'
    /\ json_document line (JObj (report u' p' (fst answer) m'))
    /\ utf8 line
    /\ forall c, In c line -> (32 <= bN c)%N.
(** A text of lines. *)
Definition lines_of (ls : list bytes) : bytes := flat_map (fun l => l ++ [Byte.x0a]) ls.

(** ** A network that only delivers what fits into memory; it may answer
    anything otherwise. *)
Definition real_network (net : network) : Prop :=
  (forall url m, n_get net url <> Panic m) /\ (forall url d m, n_post net url d <> Panic m)
  /\ (forall url d code m, n_post net url d <> Ok (code, Panic m))
  /\ (forall url d code body, n_post net url d = Ok (code, Ok body) -> holdable body).

(** What a program reads when told to read [name]: "-" is standard input. *)
Definition given (fs : files) (name content : bytes) : Prop :=
  name = str "-" /\ content = f_stdin fs \/ name <> str "-" /\ f_open fs name = Some content.

(** ** Command lines *)

(** The kinds of options. *)
Inductive flag_kind : Type := TextFlag | BoolFlag | IntFlag.
Definition server_options : list (string * flag_kind) :=
  [("config", TextFlag); ("listen", TextFlag); ("dump-config", BoolFlag); ("infile", TextFlag);
   ("metadata", TextFlag); ("num-variants", IntFlag); ("username-variant", BoolFlag)]%string.
Definition client_options : list (string * flag_kind) :=
  [("config", TextFlag); ("dump-config", BoolFlag); ("show-password", BoolFlag); ("infile", TextFlag); ("target", TextFlag)]%string.

(** The texts of a boolean. *)
Definition bool_text (v : bytes) (b : bool) : Prop :=
  In v (map str (if b then ["1"; "t"; "T"; "true"; "TRUE"; "True"] else ["0"; "f"; "F"; "false"; "FALSE"; "False"])%string).

(** The texts of an integer, as in Go programs: a sign; 0x, 0o, 0b or 0 for
    another base than 10; single underscores between digits or after the base
    prefix. *)
Definition digit_text (base : N) (c : byte) (d : N) : Prop :=
  (d < base /\ (d < 10 /\ bN c = 48 + d \/ 10 <= d /\ (bN c = 87 + d \/ bN c = 55 + d)))%N.
Inductive digits_text (base : N) : bytes -> list N -> Prop :=
| dt_nil : digits_text base [] []
| dt_digit c d t ds : digit_text base c d -> digits_text base t ds -> digits_text base (c :: t) (d :: ds)
| dt_under c d t ds : digit_text base c d -> digits_text base t ds -> digits_text base (str "_" ++ c :: t) (d :: ds).
Definition digits_value (base : N) (ds : list N) : N := fold_left (fun a d => a * base + d)%N ds 0%N.
Definition natural_text (v : bytes) (n : N) : Prop :=
  (exists c d t ds, v = c :: t /\ digit_text 10 c d /\ d <> 0%N /\ digits_text 10 t ds /\ n = digits_value 10 (d :: ds))
  \/ (exists t ds, v = str "0" ++ t /\ digits_text 8 t ds /\ n = digits_value 8 ds)
  \/ (exists base letters c t ds, In (base, letters) [(2, "bB"); (8, "oO"); (16, "xX")]%N%string /\ In c (str letters)
        /\ v = str "0" ++ [c] ++ t /\ ds <> [] /\ digits_text base t ds /\ n = digits_value base ds).
Definition int_text (v : bytes) (z : Z) : Prop :=
  (- 2 ^ 63 <= z < 2 ^ 63)%Z /\
  exists n t, natural_text t n /\ (((v = t \/ v = str "+" ++ t) /\ z = Z.of_N n) \/ (v = str "-" ++ t /\ z = - Z.of_N n))%Z.

Definition value_ok (k : flag_kind) (v : bytes) : Prop :=
  match k with
  | TextFlag => True
  | BoolFlag => exists b, bool_text v b
  | IntFlag => exists z, int_text v z
  end.

(** [writes opts args asg rest]: [args] begins with the assignments [asg] in
    one of the forms -name=value, --name=value, -name value (not for booleans)
    and -name (only for booleans); [rest] is what follows. *)
Inductive writes (opts : list (string * flag_kind)) : list bytes -> list (string * bytes) -> list bytes -> Prop :=
| w_rest rest : writes opts rest [] rest
| w_eq n k v dash args asg rest : In (n, k) opts -> value_ok k v -> In dash (map str ["-"; "--"]%string) ->
    writes opts args asg rest -> writes opts ((dash ++ str n ++ str "=" ++ v) :: args) ((n, v) :: asg) rest
| w_next n k v dash args asg rest : In (n, k) opts -> k <> BoolFlag -> value_ok k v -> In dash (map str ["-"; "--"]%string) ->
    writes opts args asg rest -> writes opts ((dash ++ str n) :: v :: args) ((n, v) :: asg) rest
| w_bool n dash args asg rest : In (n, BoolFlag) opts -> In dash (map str ["-"; "--"]%string) ->
    writes opts args asg rest -> writes opts ((dash ++ str n) :: args) ((n, str "true") :: asg) rest.

(** An argument at which the options end: "", "-", "--" and everything that
    does not begin with a dash. *)
Definition ends_options (rest : list bytes) : Prop :=
  match rest with
  | [] => True
  | a :: _ => a = str "-" \/ a = str "--" \/ forall r, a <> str "-" ++ r
  end.

(** The text given last for an option. *)
Definition setting (asg : list (string * bytes)) (n default : string) : bytes :=
  fold_left (fun cur mv => if String.eqb (fst mv) n then snd mv else cur) asg (str default).

(** What the options of the server are after assignments. *)
Definition server_reads (asg : list (string * bytes)) (o : server_opts) : Prop :=
  so_config o = setting asg "config" "" /\ so_listen o = setting asg "listen" "localhost:8080"
  /\ bool_text (setting asg "dump-config" "false") (so_dump o) /\ so_infile o = setting asg "infile" "-"
  /\ so_metadata o = setting asg "metadata" "" /\ int_text (setting asg "num-variants" "9") (so_num o)
  /\ bool_text (setting asg "username-variant" "true") (so_username o).
Definition client_reads (asg : list (string * bytes)) (o : client_opts) : Prop :=
  co_config o = setting asg "config" "" /\ bool_text (setting asg "dump-config" "false") (co_dump o)
  /\ bool_text (setting asg "show-password" "false") (co_show o) /\ co_infile o = setting asg "infile" "-"
  /\ co_target o = setting asg "target" "http://localhost:8080".

(** Arguments that are refused: an unknown option, a value that does not fit
    the kind of the option, a missing value, and a dash followed by two dashes or
    by "=". *)
Inductive refused (opts : list (string * flag_kind)) : list bytes -> Prop :=
| r_unknown n v dash rest : (forall k, ~ In (n, k) opts) -> n <> "h"%string -> n <> "help"%string ->
    (exists c r, str n = c :: r /\ c <> Byte.x2d /\ ~ In Byte.x3d (str n)) -> In dash (map str ["-"; "--"]%string) ->
    (v = [] \/ exists w, v = str "=" ++ w) -> refused opts ((dash ++ str n ++ v) :: rest)
| r_value n k v dash rest : In (n, k) opts -> ~ value_ok k v -> In dash (map str ["-"; "--"]%string) ->
    refused opts ((dash ++ str n ++ str "=" ++ v) :: rest)
| r_next n k v dash rest : In (n, k) opts -> k <> BoolFlag -> ~ value_ok k v -> In dash (map str ["-"; "--"]%string) ->
    refused opts ((dash ++ str n) :: v :: rest)
| r_missing n k dash : In (n, k) opts -> k <> BoolFlag -> In dash (map str ["-"; "--"]%string) -> refused opts [dash ++ str n]
| r_dashes dash v rest : In dash (map str ["---"; "-="; "--="]%string) -> refused opts ((dash ++ v) :: rest).

(** A request for help, also with a value. *)
Definition asks_help (rest : list bytes) : Prop :=
  exists dash n v rest', rest = (dash ++ n ++ v) :: rest' /\ In dash (map str ["-"; "--"]%string) /\ In n (map str ["h"; "help"]%string)
    /\ (v = [] \/ exists w, v = str "=" ++ w).
