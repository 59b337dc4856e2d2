(** * Specification for C93: what printed lines may consist of. *)
From Verif Require Import Base SpecJson.

(** Characters that neither end a line, nor steer it (below 32: tab, carriage
    return, escape, bell, backspace ...), nor are markup or JavaScript line ends: less-than,
    greater-than, ampersand, U+2028, U+2029. *)
Definition tame (u : N) : Prop := (32 <= u)%N /\ ~ In u [60; 62; 38; 8232; 8233]%N.
(** UTF-8 text of such characters. *)
Definition tame_text (t : bytes) : Prop := exists us, Forall scalar us /\ Forall tame us /\ t = flat_map utf8_char us.
(** Text that a JSON string shows as it is. *)
Definition shown_as_is (t : bytes) : Prop :=
  exists us, Forall scalar us /\ Forall (fun u => tame u /\ u <> 34 /\ u <> 92)%N us /\ t = flat_map utf8_char us.
