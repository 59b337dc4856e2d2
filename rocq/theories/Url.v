(** * Model of the parts of Go's net/url, path and net/http that decide which
    handler a request reaches: cmd/client/main.go:47,91 build a URL by
    concatenation, cmd/server/server.go:42-48 routes with an http.ServeMux. *)
From Verif Require Import Base.

Definition slash : byte := Byte.x2f.
Definition dot : byte := Byte.x2e.
Definition is_slash (c : byte) : bool := Byte.eqb c slash.
Definition is_dot (c : byte) : bool := Byte.eqb c dot.

(** ** path.Clean on a path that starts with '/' (Go src/path/path.go, used by
    the ServeMux of server.go:43).  [out] is the output buffer, reversed; its
    length is [out.w] and it is never shorter than 1 ([dotdot]). *)

(** "remove to last /": drop one byte, then go on until the byte dropped was a
    '/' or only the root is left. *)
Fixpoint backtrack (out : bytes) : bytes :=
  match out with
  | c :: ((_ :: _) as rest) =>
      if is_slash c then rest else
      match rest with [_] => rest | _ => backtrack rest end
  | _ => out
  end.

(** The loop of Clean; [copying] says that the inner loop, which copies a path
    element up to the next '/', is running. *)
Fixpoint clean_loop (copying : bool) (p out : bytes) {struct p} : bytes :=
  match p with
  | [] => out
  | c :: r =>
      if is_slash c then clean_loop false r out
      else if copying then clean_loop true r (c :: out)
      else
        let copy := clean_loop true r (c :: match out with [_] => out | _ => slash :: out end) in
        if is_dot c then
          match r with
          | [] => out
          | d :: r2 =>
              if is_slash d then clean_loop false r2 out
              else if is_dot d then
                match r2 with
                | [] => backtrack out
                | e :: r3 => if is_slash e then clean_loop false r3 (backtrack out) else copy
                end
              else copy
          end
        else copy
  end.
Definition path_Clean (p : bytes) : bytes :=
  match p with
  | c :: r => if is_slash c then rev (clean_loop false r [slash]) else p (* relative paths: never asked for *)
  | [] => str "."
  end.

(** cleanPath (Go src/net/http/server.go). *)
Definition cleanPath (p : bytes) : bytes :=
  match p with
  | [] => [slash]
  | c :: _ =>
      let p := if is_slash c then p else slash :: p in
      let np := path_Clean p in
      if is_slash (last p slash) && negb (bytes_eqb np [slash]) then np ++ [slash] else np
  end.

(** ** URLs.  Modelled: "http://", a host name with an optional port, then a
    path, query and fragment of characters that url.Parse takes literally.
    Percent escapes, user information, IPv6 literals and other schemes are not
    modelled: [url_path] is [None] there, and no theorem speaks about them. *)
Definition alnum (c : byte) : bool :=
  let n := bN c in
  ((48 <=? n) && (n <=? 57) || (65 <=? n) && (n <=? 90) || (97 <=? n) && (n <=? 122))%N.
Definition digit (c : byte) : bool := ((48 <=? bN c) && (bN c <=? 57))%N.
Definition name_char (c : byte) : bool := alnum c || Byte.eqb c dot || Byte.eqb c Byte.x2d.
(** alphanumeric - . _ ~ / ? # = & *)
Definition tail_char (c : byte) : bool :=
  alnum c || existsb (Byte.eqb c) (str "-._~/?#=&").

Fixpoint host_ok_from (seen : bool) (h : bytes) : bool :=
  match h with
  | [] => seen
  | c :: r =>
      if Byte.eqb c Byte.x3a then seen && negb (match r with [] => true | _ => false end) && forallb digit r
      else name_char c && host_ok_from true r
  end.
Definition host_ok (h : bytes) : bool := host_ok_from false h.

(** The path of a URL ends at the first '?' or '#'; an empty path is sent as
    "/" (url.RequestURI). *)
Fixpoint upto_query (p : bytes) : bytes :=
  match p with
  | [] => []
  | c :: r => if Byte.eqb c Byte.x3f || Byte.eqb c Byte.x23 then [] else c :: upto_query r
  end.

Fixpoint strip (prefix s : bytes) : option bytes :=
  match prefix, s with
  | [], _ => Some s
  | a :: p, b :: t => if Byte.eqb a b then strip p t else None
  | _ :: _, [] => None
  end.

(** The path that is requested from the server at [host]. *)
Definition url_path (host url : bytes) : option bytes :=
  match strip (str "http://" ++ host) url with
  | Some rest =>
      if host_ok host && forallb tail_char rest
         && match rest with [] => true | c :: _ => existsb (Byte.eqb c) (str "/?#") end
      then Some (match upto_query rest with [] => [slash] | p => p end)
      else None
  | None => None
  end.
