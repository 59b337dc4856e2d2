(** * Lemmas about the sequential store (cmd/server/kv.go). *)
From Verif Require Import Base BaseProofs KV.

Lemma lookup_set kv id v id' :
  kv_lookup (kv_set kv id v) id' = if bytes_eqb id id' then v else kv_lookup kv id'.
Proof.
  induction kv as [|[k w] kv IH]; cbn [kv_set kv_lookup]; [reflexivity|].
  destruct (bytes_eqb k id) eqn:E.
  - apply bytes_eqb_eq in E. subst k. cbn [kv_lookup]. destruct (bytes_eqb id id'); reflexivity.
  - cbn [kv_lookup]. destruct (bytes_eqb k id') eqn:E'.
    + apply bytes_eqb_eq in E'. subst k. rewrite bytes_eqb_sym, E. reflexivity.
    + exact IH.
Qed.

Lemma sl_append s v : sl (go_append s v) = sl s ++ v.
Proof. destruct s, v; cbn; rewrite ?app_nil_r; reflexivity. Qed.

Lemma lookup_append kv id v id' :
  sl (kv_lookup (kv_Append kv id v) id')
  = if bytes_eqb id id' then sl (kv_lookup kv id') ++ v else sl (kv_lookup kv id').
Proof.
  unfold kv_Append. rewrite lookup_set. destruct (bytes_eqb id id') eqn:E; [|reflexivity].
  apply bytes_eqb_eq in E. subst id'. apply sl_append.
Qed.

Lemma lookup_append_same kv id v : sl (kv_lookup (kv_Append kv id v) id) = sl (kv_lookup kv id) ++ v.
Proof. rewrite lookup_append, bytes_eqb_refl. reflexivity. Qed.

Lemma lookup_append_other kv id v id' : id <> id' -> kv_lookup (kv_Append kv id v) id' = kv_lookup kv id'.
Proof. intros H. unfold kv_Append. rewrite lookup_set, (proj2 (bytes_eqb_neq _ _) H). reflexivity. Qed.
