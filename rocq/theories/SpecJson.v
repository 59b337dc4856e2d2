(** * Specification: UTF-8 by code point ranges, and JSON by the grammar of
    RFC 8259, read the way encoding/json documents: a byte that is not part of
    a UTF-8 character and an unpaired surrogate escape stand for U+FFFD. *)
From Verif Require Import Base Json.
Local Open Scope N_scope.

(** ** UTF-8, by the code point ranges of the standard. *)
Definition scalar (u : N) : Prop := (u < 55296 \/ 57344 <= u < 1114112)%N.
Definition utf8_char (u : N) : bytes :=
  map nB (if (u <? 128)%N then [u]
          else if (u <? 2048)%N then [192 + u / 64; 128 + u mod 64]
          else if (u <? 65536)%N then [224 + u / 4096; 128 + (u / 64) mod 64; 128 + u mod 64]
          else [240 + u / 262144; 128 + (u / 4096) mod 64; 128 + (u / 64) mod 64; 128 + u mod 64])%N.
Definition utf8 (s : bytes) : Prop := exists us, Forall scalar us /\ s = flat_map utf8_char us.

(** The text a JSON string can carry of [s]: [s] itself when it is UTF-8, and
    otherwise [s] with U+FFFD in the place of every byte outside a valid
    sequence. *)
Inductive readable : bytes -> bytes -> Prop :=
| rd_nil : readable [] []
| rd_char u s t : scalar u -> readable s t -> readable (utf8_char u ++ s) (utf8_char u ++ t)
| rd_bad c s t : (forall u r, scalar u -> c :: s <> utf8_char u ++ r) -> readable s t ->
    readable (c :: s) ([Byte.xef; Byte.xbf; Byte.xbd] ++ t).

(** ** White space, numbers, strings *)
Definition json_space (s : bytes) : Prop := forall c, In c s -> In c [Byte.x20; Byte.x09; Byte.x0a; Byte.x0d].

(** -? (0 | [1-9][0-9]* ) (. [0-9]+)? ([eE][+-]?[0-9]+)? *)
Definition digits (s : bytes) : Prop := s <> [] /\ Forall (fun c => In c (str "0123456789")) s.
Definition number (l : bytes) : Prop :=
  exists sign int frac exp,
    l = sign ++ int ++ frac ++ exp
    /\ In sign [[]; str "-"]
    /\ digits int /\ (forall r, int = str "0" ++ r -> r = [])
    /\ (frac = [] \/ exists d, digits d /\ frac = str "." ++ d)
    /\ (exp = [] \/ exists e sg d, In e [str "e"; str "E"] /\ In sg [[]; str "+"; str "-"] /\ digits d /\ exp = e ++ sg ++ d).

(** Four hexadecimal digits and the number they stand for. *)
Definition hex_digits : list (byte * N) :=
  combine (str "0123456789abcdefABCDEF") [0; 1; 2; 3; 4; 5; 6; 7; 8; 9; 10; 11; 12; 13; 14; 15; 10; 11; 12; 13; 14; 15].
Definition hex4 (h : bytes) (u : N) : Prop :=
  exists a b c d x y z w, h = [a; b; c; d]
    /\ In (a, x) hex_digits /\ In (b, y) hex_digits /\ In (c, z) hex_digits /\ In (d, w) hex_digits
    /\ u = x * 4096 + y * 256 + z * 16 + w.
Definition high_surrogate (u : N) : Prop := 55296 <= u < 56320.
Definition low_surrogate (u : N) : Prop := 56320 <= u < 57344.
(** The escapes of one letter. *)
Definition escapes : list (byte * byte) :=
  [(Byte.x22, Byte.x22); (Byte.x5c, Byte.x5c); (Byte.x2f, Byte.x2f); (Byte.x62, Byte.x08); (Byte.x66, Byte.x0c);
   (Byte.x6e, Byte.x0a); (Byte.x72, Byte.x0d); (Byte.x74, Byte.x09)].

(** What stands between the quotes of a string literal, and the string. *)
Inductive string_body : bytes -> bytes -> Prop :=
| sb_nil : string_body [] []
| sb_char u s t : scalar u -> 32 <= u -> u <> 34 -> u <> 92 -> string_body s t ->
    string_body (utf8_char u ++ s) (utf8_char u ++ t)
| sb_escape e c s t : In (e, c) escapes -> string_body s t -> string_body (str "\" ++ e :: s) (c :: t)
| sb_unicode h u s t : hex4 h u -> scalar u -> string_body s t -> string_body (str "\u" ++ h ++ s) (utf8_char u ++ t)
| sb_pair h u h' v s t : hex4 h u -> hex4 h' v -> high_surrogate u -> low_surrogate v -> string_body s t ->
    string_body (str "\u" ++ h ++ str "\u" ++ h' ++ s) (utf8_char (65536 + (u - 55296) * 1024 + (v - 56320)) ++ t)
| sb_lone h u s t : hex4 h u -> ~ scalar u ->
    (forall h' v r, high_surrogate u -> hex4 h' v -> low_surrogate v -> s <> str "\u" ++ h' ++ r) -> string_body s t ->
    string_body (str "\u" ++ h ++ s) ([Byte.xef; Byte.xbf; Byte.xbd] ++ t)
| sb_bad c s t : (forall u r, scalar u -> c :: s <> utf8_char u ++ r) -> string_body s t ->
    string_body (c :: s) ([Byte.xef; Byte.xbf; Byte.xbd] ++ t).

(** ** Values *)
Inductive json_text : bytes -> json -> Prop :=
| jt_null : json_text (str "null") JNull
| jt_true : json_text (str "true") (JBool true)
| jt_false : json_text (str "false") (JBool false)
| jt_number l : number l -> json_text l (JNum l)
| jt_string s t : string_body s t -> json_text (str """" ++ s ++ str """") (JStr t)
| jt_array0 w : json_space w -> json_text (str "[" ++ w ++ str "]") (JArr [])
| jt_array s l : json_elements s l -> json_text (str "[" ++ s ++ str "]") (JArr l)
| jt_object0 w : json_space w -> json_text (str "{" ++ w ++ str "}") (JObj [])
| jt_object s l : json_members s l -> json_text (str "{" ++ s ++ str "}") (JObj l)
with json_elements : bytes -> list json -> Prop :=
| je_one w s w' j : json_space w -> json_text s j -> json_space w' -> json_elements (w ++ s ++ w') [j]
| je_more w s w' j r l : json_space w -> json_text s j -> json_space w' -> json_elements r l ->
    json_elements (w ++ s ++ w' ++ str "," ++ r) (j :: l)
with json_members : bytes -> list (bytes * json) -> Prop :=
| jm_one w k name w1 w2 s w' j : json_space w -> string_body k name -> json_space w1 -> json_space w2 -> json_text s j -> json_space w' ->
    json_members (w ++ (str """" ++ k ++ str """") ++ w1 ++ str ":" ++ w2 ++ s ++ w') [(name, j)]
| jm_more w k name w1 w2 s w' j r l : json_space w -> string_body k name -> json_space w1 -> json_space w2 -> json_text s j -> json_space w' ->
    json_members r l ->
    json_members (w ++ (str """" ++ k ++ str """") ++ w1 ++ str ":" ++ w2 ++ s ++ w' ++ str "," ++ r) ((name, j) :: l).

(** A document: a value with white space around it. *)
Definition json_document (s : bytes) (j : json) : Prop :=
  exists w t w', s = w ++ t ++ w' /\ json_space w /\ json_text t j /\ json_space w'.

(** The depth of arrays and objects in a value. *)
Fixpoint nesting (j : json) : N :=
  match j with
  | JArr l => 1 + fold_right (fun x m => N.max (nesting x) m) 0 l
  | JObj l => 1 + fold_right (fun x m => N.max (nesting (snd x)) m) 0 l
  | _ => 0
  end.
