(** * Specification for C80: what the client says on standard error. *)
From Verif Require Import Base SpecDecode Effects SpecEffects.

(** "WARN: Your MIGP library version (1) does not match the version specified
    in the config (<v>) and may not be compatible." *)
Definition warns (v : N) (b : bytes) : Prop :=
  exists x, plain_natural x v
    /\ b = str "WARN: Your MIGP library version (1) does not match the version specified in the config (" ++ x ++ str ") and may not be compatible.".

(** Events that say nothing and ask for the configuration at most. *)
Definition only_config (t : list event) : Prop := forall e, In e t -> exists url a, e = EGet url a.

(** Nothing is said but possibly an error; that is the last event, and it is
    said exactly before leaving with status 1. *)
Definition says_only_failure (t : list event) (r : option N) : Prop :=
  messages t = [] /\ r <> Some 1%N
  \/ exists before, t = before ++ [ELog (Error [])] /\ messages before = [] /\ (r = Some 1%N \/ r = None).
