(** * JSON forms of the repository's types. *)
From Verif Require Import Base Json Common Oprf Server Mutator DasRules.

(** ** Config (common.go:44-51), fields in declaration order. *)
Definition config_names : list bytes :=
  map str ["version"; "bucketIDBitSize"; "bucketHasher"; "slowHasher"; "bucketEncryptor"; "oprfSuite"]%string.

Definition config_values (c : Config) : list bytes :=
  [dec_N (cfg_version c); dec_Z (cfg_bits c); dec_N (cfg_bucketHasher c);
   dec_N (cfg_slowHasher c); dec_N (cfg_bucketEncryptor c); dec_N (cfg_oprfSuite c)].

(** json.Marshal of a Config. *)
Definition Config_marshal (c : Config) : bytes :=
  json_struct (combine config_names (config_values c)).

(** The zero value of the type. *)
Definition zeroConfig : Config := mkConfig 0 0 0 0 0 0.

(** Store of a JSON value into field [i] of a Config ([iw]-bit ints). *)
Definition config_set (iw : Z) (i : nat) (c : Config) (j : json) : Config * bool :=
  let (v, b, h, s, e, o) := c in
  match i with
  | 0%nat => let (x, er) := set_uint 16 v j in (mkConfig x b h s e o, er)
  | 1%nat => let (x, er) := set_int iw b j in (mkConfig v x h s e o, er)
  | 2%nat => let (x, er) := set_uint 16 h j in (mkConfig v b x s e o, er)
  | 3%nat => let (x, er) := set_uint 16 s j in (mkConfig v b h x e o, er)
  | 4%nat => let (x, er) := set_uint 16 e j in (mkConfig v b h s x o, er)
  | _ => let (x, er) := set_uint 16 o j in (mkConfig v b h s e x, er)
  end.

(** json.Unmarshal into a fresh Config (cmd/client/main.go:34,41,55; for the
    /config response the client uses a Decoder, which reads one value and
    leaves the rest unread: see [Config_decode]). *)
Definition Config_unmarshal (iw : Z) (data : bytes) : res Config :=
  match unmarshal_struct config_names (config_set iw) zeroConfig data with
  | (c, None) => Ok c
  | (_, Some e) => Err e
  end.

(** json.NewDecoder(body).Decode(&cfg): parses the first JSON value of the
    stream (cmd/client/main.go:54-55). *)
Definition Config_decode (iw : Z) (data : bytes) : res Config :=
  match parse_value (S (length data)) 0 data with
  | None => Err "json: syntax error"
  | Some (JObj ms, _) =>
      let (c, e) := decode_members config_names (config_set iw) zeroConfig false ms in
      if e then Err "json: cannot unmarshal" else Ok c
  | Some (JNull, _) => Ok zeroConfig
  | Some _ => Err "json: cannot unmarshal"
  end.

(** ** ServerConfig through auxServerConfig (server.go:41-70). *)
Definition server_config_names : list bytes := config_names ++ [str "privateKey"].

Section ServerConfigJson.
Variable LIB : OPRF.

(** server.go:47-56; a failing Serialize panics. *)
Definition ServerConfig_MarshalJSON (c : ServerConfig LIB) : res bytes :=
  match key_bytes LIB (sc_privateKey c) with
  | Ok k => Ok (json_struct (combine server_config_names
                  (config_values (sc_config c) ++ [json_bytes (Some k)])))
  | Err e => Panic e
  | Panic m => Panic m
  end.

Definition aux_set (iw : Z) (i : nat) (a : Config * buf) (j : json) : (Config * buf) * bool :=
  if (i <? 6)%nat then let (c, e) := config_set iw i (fst a) j in ((c, snd a), e)
  else let (k, e) := set_bytes (snd a) j in ((fst a, k), e).

(** server.go:59-70 *)
Definition ServerConfig_UnmarshalJSON (iw : Z) (data : bytes) : res (ServerConfig LIB) :=
  match unmarshal_struct server_config_names (aux_set iw) (zeroConfig, (None, [])) data with
  | (_, Some e) => Err e
  | ((c, (k, _)), None) =>
      key <- key_parse LIB (cfg_oprfSuite c) (sl k) ;;
      Ok {| sc_config := c; sc_privateKey := key |}
  end.

End ServerConfigJson.
Arguments ServerConfig_MarshalJSON {LIB} _.

(** ** ClientRequest (client.go:30-34). *)
Definition request_names : list bytes := map str ["version"; "bucketID"; "blindElement"]%string.

(** json.Marshal of a request (client.go:168). *)
Definition ClientRequest_marshal (r : ClientRequest) : bytes :=
  json_struct (combine request_names
    [dec_N (rq_version r); json_quote (rq_bucketID r); json_bytes (rq_blindElement r)]).

Definition zeroRequest : ClientRequest := mkClientRequest 0 [] None.

(** A request and the bytes behind its blind element. *)
Definition request_set (i : nat) (a : ClientRequest * bytes) (j : json) : (ClientRequest * bytes) * bool :=
  let (r, sp) := a in
  let (v, b, e) := r in
  match i with
  | 0%nat => let (x, er) := set_uint 32 v j in ((mkClientRequest x b e, sp), er)
  | 1%nat => let (x, er) := set_string b j in ((mkClientRequest v x e, sp), er)
  | _ => let (x, er) := set_bytes (e, sp) j in ((mkClientRequest v b (fst x), snd x), er)
  end.

(** json.Unmarshal(body, &request) (cmd/server/server.go:113-114): the request
    as it is afterwards, and the error. *)
Definition ClientRequest_unmarshal (data : bytes) : ClientRequest * option string :=
  let (a, e) := unmarshal_struct request_names request_set (zeroRequest, []) data in (fst a, e).

(** ** RDasRule (rdasmutator.go:31-36) and the rule list. *)
Definition rule_names : list bytes := map str ["ruletype"; "position"; "string1"; "string2"]%string.
Definition zeroRule : RDasRule := mkRule [] 0 [] [].
Definition rule_set (i : nat) (r : RDasRule) (j : json) : RDasRule * bool :=
  let (t, p, a, b) := r in
  match i with
  | 0%nat => let (x, er) := set_string t j in (mkRule x p a b, er)
  | 1%nat => let (x, er) := set_int 64 p j in (mkRule t x a b, er)
  | 2%nat => let (x, er) := set_string a j in (mkRule t p x b, er)
  | _ => let (x, er) := set_string b j in (mkRule t p a x, er)
  end.
Definition rule_decode (j : json) : RDasRule * bool :=
  match j with
  | JObj ms => decode_members rule_names rule_set zeroRule false ms
  | JNull => (zeroRule, false)
  | _ => (zeroRule, true)
  end.

(** json.Unmarshal([]byte(text), &m.dasRules) (rdasmutator.go:45). *)
Definition rules_unmarshal (text : bytes) : res (list RDasRule) :=
  match json_parse text with
  | Some (JArr l) =>
      let rs := map rule_decode l in
      if existsb snd rs then Err "json: cannot unmarshal" else Ok (map fst rs)
  | Some JNull => Ok []
  | Some _ => Err "json: cannot unmarshal"
  | None => Err "json: syntax error"
  end.

(** rdasmutator.go:43-50: the rules of a new mutator, or a panic. *)
Definition new_mutator (text : bytes) : res (list RDasRule) :=
  match rules_unmarshal text with
  | Ok rules => Ok rules
  | _ => Panic "could not unmarshal Das rules"
  end.
Definition NewRDasMutator : res (list RDasRule) := new_mutator dasRulesJSONString.

(** mutator.NewRDasMutator().Mutate(password, n) as cmd/server/server.go:63
    calls it. *)
Definition password_variants (password : bytes) (n : Z) : res (list bytes) :=
  rules <- NewRDasMutator ;; Mutate rules password n.
(* Keep tactics from evaluating the parser on the 35 kB text. *)
Global Opaque NewRDasMutator password_variants.
