(** * Specification: vocabulary of the JSON and HTTP properties. *)
From Verif Require Import Base Server.
From Verif Require Export SpecJson.

(** The two error pages. *)
Definition bad_request : bytes := str "Bad Request" ++ [Byte.x0a].
Definition internal_error : bytes := str "Internal Server Error" ++ [Byte.x0a].

(** The binary response: version, element, bucket. *)
Definition answer_bytes (resp : ServerResponse) : bytes :=
  be32 (rs_version resp) ++ rs_evaluatedElement resp ++ sl (rs_bucketContents resp).

(** Two calls end the same way: equal results, or both an error, or both a
    panic (the wording of errors may differ). *)
Definition same_outcome {A} (x y : res A) : Prop :=
  match x, y with
  | Ok a, Ok b => a = b
  | Err _, Err _ => True
  | Panic _, Panic _ => True
  | _, _ => False
  end.

(** Every byte of a string is ASCII. *)
Definition ascii_only (s : bytes) : Prop := forall c, In c s -> (bN c < 128)%N.


(** ** Paths of URLs *)
Definition slash_ : byte := Byte.x2f.
(** The text between the slashes. *)
Fixpoint segments (p : bytes) : list bytes :=
  match p with
  | [] => [[]]
  | c :: r =>
      if Byte.eqb c slash_ then [] :: segments r
      else match segments r with s :: ss => (c :: s) :: ss | [] => [[c]] end
  end.
(** Walking down the segments: an empty segment and "." stay, ".." goes up
    (not above the root), any other segment goes down.  [stack] is the walk so
    far, innermost first. *)
Definition walk (stack : list bytes) (seg : bytes) : list bytes :=
  if bytes_eqb seg [] || bytes_eqb seg (str ".") then stack
  else if bytes_eqb seg (str "..") then tl stack
  else seg :: stack.
Definition resolve (p : bytes) : list bytes := rev (fold_left walk (segments p) []).
(** "/a/b/c" *)
Definition absolute (segs : list bytes) : bytes := flat_map (cons slash_) segs.
(** The canonical form of a path: resolved; a trailing slash is kept. *)
Definition canonical (p : bytes) : bytes :=
  match resolve p with
  | [] => [slash_]
  | segs => absolute segs ++ (if Byte.eqb (last p Byte.x00) slash_ then [slash_] else [])
  end.
(** A path with nothing to resolve. *)
Definition ordinary (s : bytes) : Prop := s <> [] /\ s <> str "." /\ s <> str ".." /\ ~ In slash_ s.
Definition tidy (p : bytes) : Prop :=
  p = [slash_] \/
  exists segs, segs <> [] /\ (forall s, In s segs -> ordinary s) /\ (p = absolute segs \/ p = absolute segs ++ [slash_]).

(** A host name or address with an optional port, and the characters that mean
    themselves in the rest of a URL. *)
Definition letters_digits : bytes := str "ABCDEFGHIJKLMNOPQRSTUVWXYZabcdefghijklmnopqrstuvwxyz0123456789".
Definition plain_host (h : bytes) : Prop :=
  exists name, name <> [] /\ (forall c, In c name -> In c (letters_digits ++ str ".-")) /\
    (h = name \/ exists port, port <> [] /\ (forall c, In c port -> In c (str "0123456789")) /\ h = name ++ str ":" ++ port).
Definition plain_tail (t : bytes) : Prop :=
  (forall c, In c t -> In c (letters_digits ++ str "-._~/?#=&")) /\
  (t = [] \/ exists c r, t = c :: r /\ In c (str "/?#")).
(** The path in the rest of a URL: what precedes the first '?' or '#', and "/"
    if that is nothing. *)
Definition tail_path (t p : bytes) : Prop :=
  exists p0 q, t = p0 ++ q /\ (forall c, In c p0 -> ~ In c (str "?#")) /\ (q = [] \/ exists c r, q = c :: r /\ In c (str "?#")) /\
    p = match p0 with [] => [slash_] | _ => p0 end.
