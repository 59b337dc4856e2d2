(** Specification for C70: the files of the README's quick start
    (README.md:17-34) and what the client is to print for them. *)
From Verif Require Import Base.

(** testdata/test_breach.txt *)
Definition breach_line (i : string) : bytes := str "username" ++ str i ++ str "@example.com:password" ++ str i.
Definition test_breach : bytes :=
  flat_map (fun i => breach_line i ++ [Byte.x0a]) ["0"; "1"; "2"; "3"; "4"; "5"; "6"; "7"; "8"; "9"]%string.
Definition breached : list (bytes * bytes) :=
  map (fun i => (str "username" ++ str i ++ str "@example.com", str "password" ++ str i)) ["0"; "1"; "2"; "3"; "4"; "5"; "6"; "7"; "8"; "9"]%string.

(** testdata/test_queries.txt *)
Definition test_queries : bytes :=
  flat_map (fun l => str l ++ [Byte.x0a])
    ["username1@example.com:password1"; "username1@example.com:password"; "username1@example.com:"; "notexposed@example.com:1234"]%string.
Definition queried : list (bytes * bytes) :=
  [(str "username1@example.com", str "password1"); (str "username1@example.com", str "password");
   (str "username1@example.com", []); (str "notexposed@example.com", str "1234")].

Definition quick_start_output : bytes :=
  flat_map (fun l => str l ++ [Byte.x0a])
   ["{""username"":""username1@example.com"",""status"":""password in breach""}";
    "{""username"":""username1@example.com"",""status"":""similar password in breach""}";
    "{""username"":""username1@example.com"",""status"":""username in breach""}";
    "{""username"":""notexposed@example.com"",""status"":""password not in breach""}"]%string.
