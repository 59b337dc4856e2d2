(** * Specification for C91: the configuration page piece by piece. *)
From Verif Require Import Base Common Json SpecJson.

(** [b] begins, after white space, with the JSON text of [j]; [rest] follows. *)
Definition begins_with (b : bytes) (j : json) (rest : bytes) : Prop :=
  exists w x, b = w ++ x ++ rest /\ json_space w /\ json_text x j /\ (nesting j <= 10000)%N.
(** Arrays and objects: what ends with its own bracket. *)
Definition bracketed (j : json) : Prop := (exists l, j = JArr l) \/ exists l, j = JObj l.
(** More could follow before [b] is a JSON text, or (for a text without
    brackets, whose end only shows in what follows) it is one as it stands. *)
Definition unfinished (b : bytes) : Prop :=
  exists more j, begins_with (b ++ more) j [] /\ (more <> [] \/ ~ bracketed j).

(** Two outcomes that agree but for the wording of an error. *)
Definition same_outcome {A} (r r' : res A) : Prop :=
  match r, r' with Ok a, Ok b => a = b | Err _, Err _ => True | Panic a, Panic b => a = b | _, _ => False end.
(** No continuation of [b] begins with a JSON text. *)
Definition hopeless (b : bytes) : Prop := forall more j rest, ~ begins_with (b ++ more) j rest.
