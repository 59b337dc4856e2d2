(** * Decoding into a value that is already in use, and encoding by value. *)
From Verif Require Import Base Json Common Oprf Server ConfigJson.

(** json.Unmarshal(data, &c) for a Config (common.go:44-51) with contents: the
    Config afterwards and the error. *)
Definition Config_unmarshal_into (iw : Z) (c : Config) (data : bytes) : Config * option string :=
  unmarshal_struct config_names (config_set iw) c data.

(** server.go:189-206 on a response with contents: binary.Read stores the
    version only when it got 4 bytes; the element is allocated before it is
    read, so a short read leaves it filled up with zeros. *)
Definition UnmarshalBinary_into (LIB : OPRF) (r : ServerResponse) (data : bytes) : ServerResponse * option string :=
  match data with
  | [] => (r, Some "EOF"%string)
  | _ =>
    if (length data <? 4)%nat then (r, Some "unexpected EOF"%string)
    else
      match get_be32 data with
      | Ok version =>
          let buffer := skipn 4 data in
          match elt_size LIB DefaultOPRFSuite with
          | Ok n =>
              let elem := firstn n buffer in
              let r' := {| rs_version := version; rs_evaluatedElement := elem ++ zeros (n - length elem);
                           rs_bucketContents := rs_bucketContents r |} in
              if (length buffer =? 0)%nat && negb (n =? 0)%nat then (r', Some "EOF"%string)
              else if negb (length elem =? n)%nat then (r', Some "too few bytes to deserialize EvaluatedElement"%string)
              else ({| rs_version := rs_version r'; rs_evaluatedElement := rs_evaluatedElement r';
                       rs_bucketContents := Some (skipn n buffer) |}, None)
          | Err e | Panic e =>
              ({| rs_version := version; rs_evaluatedElement := rs_evaluatedElement r; rs_bucketContents := rs_bucketContents r |}, Some e)
          end
      | Err e | Panic e => (r, Some e)
      end
  end.

Section Receiver.
Variable LIB : OPRF.

(** server.go:59-70 on a ServerConfig with contents: the public part and the
    key afterwards ([None]: the new key object that Deserialize could not
    fill), and the error. *)
Definition ServerConfig_UnmarshalJSON_into (iw : Z) (c : ServerConfig LIB) (data : bytes)
    : Config * option (PrivateKey LIB) * option string :=
  match unmarshal_struct server_config_names (aux_set iw) (zeroConfig, (None, [])) data with
  | (_, Some e) => (sc_config c, Some (sc_privateKey c), Some e)
  | ((aux, (k, _)), None) =>
      match key_parse LIB (cfg_oprfSuite aux) (sl k) with
      | Ok key => (aux, Some key, None)
      | Err e | Panic e => (aux, None, Some e)
      end
  end.

(** json.Marshal(cfg) for a ServerConfig that is passed by value, not by
    pointer: MarshalJSON has a pointer receiver (server.go:47) and is not
    called; the fields of the struct (server.go:35-38) are encoded one by one.
    circl's PrivateKey has no JSON form of its own and no exported fields, so it
    is encoded as an empty object. *)
Definition ServerConfig_marshal_value (c : ServerConfig LIB) : bytes :=
  json_struct (combine (config_names ++ [str "PrivateKey"]) (config_values (sc_config c) ++ [str "{}"])).

End Receiver.
Arguments ServerConfig_UnmarshalJSON_into {LIB} _ _ _. Arguments ServerConfig_marshal_value {LIB} _.
