(** * Specification: the response that a sequence of calls of
    http.ResponseWriter makes (net/http: ResponseWriter). *)
From Verif Require Import Base Effects HttpEffects.

(** The calls before the header goes out, which is with the first WriteHeader
    or Write. *)
Fixpoint before_header (t : list call) : list call :=
  match t with
  | (CHeader _ | CWrite _ _ _) :: _ => []
  | c :: r => c :: before_header r
  | [] => []
  end.
(** The status: of the first WriteHeader, or 200 if a Write comes first or
    neither comes. *)
Fixpoint status_of (t : list call) : N :=
  match t with
  | CHeader c :: _ => c
  | CWrite _ _ _ :: _ => 200%N
  | _ :: r => status_of r
  | [] => 200%N
  end.
(** The value of a header field: the last one set before the header goes out. *)
Definition header_of (t : list call) (name : bytes) : option bytes :=
  fold_left (fun cur c => match c with CSet n v => if bytes_eqb n name then Some v else cur | _ => cur end) (before_header t) None.
(** The body: what got out of the writes. *)
Definition body_of (t : list call) : bytes :=
  flat_map (fun c => match c with CWrite b n _ => firstn n b | _ => [] end) t.
Definition log_lines (t : list call) : list message :=
  flat_map (fun c => match c with CLog m => [m] | _ => [] end) t.

(** No write failed. *)
Definition writes_work (t : list call) : Prop := forall b n ok, In (CWrite b n ok) t -> ok = true.
(** The connection is broken for good: after a failing write nothing gets out. *)
Definition broken_for_good (t : list call) : Prop :=
  forall a b n r, t = a ++ CWrite b n false :: r -> forall b' n' ok', In (CWrite b' n' ok') r -> n' = 0%nat.
