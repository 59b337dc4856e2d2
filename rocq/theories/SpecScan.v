(** * Specification: vocabulary for reading input piece by piece. *)
From Verif Require Import Base ScanCode.

(** The reader does not stall: never 101 empty reads in a row.  (Reads of a
    file are never empty.) *)
Definition no_stall (sizes : list nat) : Prop := ~ exists a b : list nat, sizes = a ++ repeat 0%nat 101 ++ b.

(** The rounds of the scanner from one state to another, with the tokens they
    gave. *)
Inductive sc_steps : scanner -> list bytes -> scanner -> Prop :=
| steps_none s : sc_steps s [] s
| steps_token s s1 s' t ts : sc_round s = RToken t s1 -> sc_steps s1 ts s' -> sc_steps s (t :: ts) s'
| steps_read s s1 s' ts : sc_round s = RAgain s1 -> sc_steps s1 ts s' -> sc_steps s ts s'.
