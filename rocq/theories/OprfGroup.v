(** * An implementation of the OPRF interface over prime-order groups.

    This is the 2HashDH construction with a public info string that
    github.com/cloudflare/circl/oprf implements (base mode): the server's key
    is tweaked by a hash of info, inverted, and multiplied to the element.
    It shows that the laws assumed of the library ([OPRF_laws]) can all hold
    together, and carries the blinding property, which is about the group.
    circl itself is not in /repo; hashing to the group and serialization are
    parameters of [group]. *)
From Coq Require Import Znumtheory.
From Verif Require Import Base BaseProofs Sha256 Oprf.
Local Open Scope Z_scope.

(** A group of prime order with its hash functions and serializations. *)
Record group := mkGroup {
  G : Type;
  g_q : Z;                         (* the order *)
  g_id : G;                        (* the identity *)
  g_mul : Z -> G -> G;             (* scalar multiplication *)
  g_inv : Z -> Z;                  (* inversion of scalars *)
  g_hash : bytes -> G;             (* hash to group *)
  g_tweak : bytes -> Z;            (* hash of info to a scalar *)
  g_enc : G -> bytes;              (* serialization of elements *)
  g_dec : bytes -> option G;
  g_len : nat;                     (* SerializedElementLength *)
  g_kenc : Z -> bytes;             (* serialization of scalars *)
  g_kdec : bytes -> option Z }.

Record group_laws (g : group) : Prop := {
  gl_prime : prime (g_q g);
  gl_inv : forall a, a mod g_q g <> 0 -> (g_inv g a * a) mod g_q g = 1;
  gl_mod : forall a x, g_mul g (a mod g_q g) x = g_mul g a x;
  gl_one : forall x, g_mul g 1 x = x;
  gl_mul : forall a b x, g_mul g a (g_mul g b x) = g_mul g (a * b) x;
  (* every element but the identity generates the group, freely *)
  gl_gen : forall x y, x <> g_id g -> exists a, g_mul g a x = y;
  gl_free : forall a b x, x <> g_id g -> g_mul g a x = g_mul g b x -> a mod g_q g = b mod g_q g;
  gl_id : forall a, g_mul g a (g_id g) = g_id g;
  gl_hash : forall x, g_hash g x <> g_id g;
  gl_dec : forall x, g_dec g (g_enc g x) = Some x;
  gl_len : forall x, x <> g_id g -> length (g_enc g x) = g_len g;
  gl_key : forall k, 0 <= k < g_q g -> g_kdec g (g_kenc g k) = Some k }.

(** Sequenced map. *)
Fixpoint mapM {A B} (f : A -> res B) (l : list A) : res (list B) :=
  match l with
  | [] => Ok []
  | a :: r => b <- f a ;; bs <- mapM f r ;; Ok (b :: bs)
  end.

Section Suites.
Variable groups : N -> option group.

(** A private key: its suite and scalar. *)
Definition gkey := (N * Z)%type.

(** The scalar for a random draw: never 0. *)
Definition scalar (g : group) (r : N) : Z := 1 + Z.of_N r mod (g_q g - 1).

Definition with_suite {A} (s : N) (f : group -> res A) : res A :=
  match groups s with Some g => f g | None => Err "oprf: unsupported suite" end.

Definition out_hash (x e info : bytes) : bytes :=
  sha256 (be32 (N.of_nat (length x)) ++ x ++ be32 (N.of_nat (length info)) ++ info
          ++ be32 (N.of_nat (length e)) ++ e ++ str "Finalize").

Definition tweaked (g : group) (k : gkey) (info : bytes) : res Z :=
  if (snd k + g_tweak g info) mod g_q g =? 0 then Err "oprf: inverse of zero"
  else Ok (g_inv g (snd k + g_tweak g info)).

Definition group_OPRF : OPRF := {|
  PrivateKey := gkey;
  Blind := N;
  client_suite := fun s => with_suite s (fun _ => Ok tt);
  server_suite := fun s k =>
    with_suite s (fun g =>
      if (fst k =? s)%N && (0 <=? snd k) && (snd k <? g_q g) then Ok tt else Err "oprf: key of another suite");
  elt_size := fun s => with_suite s (fun g => Ok (g_len g));
  blind := fun s xs rs => with_suite s (fun g =>
    mapM (fun p => Ok (g_enc g (g_mul g (scalar g (snd p)) (g_hash g (fst p))))) (combine xs rs));
  evaluate := fun s k bs info => with_suite s (fun g =>
    t <- tweaked g k info ;;
    mapM (fun b => match g_dec g b with
                   | Some x => Ok (g_enc g (g_mul g t x))
                   | None => Err "oprf: invalid element" end) bs);
  unblind := fun s xs rs es info => with_suite s (fun g =>
    if Nat.eqb (length xs) (length rs) && Nat.eqb (length xs) (length es) then
      mapM (fun p => match g_dec g (snd p) with
                     | Some y => Ok (out_hash (fst (fst p))
                                       (g_enc g (g_mul g (g_inv g (scalar g (snd (fst p)))) y)) info)
                     | None => Err "oprf: invalid element" end) (combine (combine xs rs) es)
    else Err "oprf: mismatched lengths");
  full_evaluate := fun s k x info => with_suite s (fun g =>
    t <- tweaked g k info ;; Ok (out_hash x (g_enc g (g_mul g t (g_hash g x))) info));
  key_bytes := fun k => with_suite (fst k) (fun g => Ok (g_kenc g (snd k)));
  key_parse := fun s d => with_suite s (fun g =>
    match g_kdec g d with Some k => Ok (s, k) | None => Err "oprf: invalid key" end) |}.

Hypothesis Hlaws : forall s g, groups s = Some g -> group_laws g.
Hypothesis Hdefault : exists g, groups 3%N = Some g /\ g_len g = 33%nat.

Lemma mapM_length {A B} (f : A -> res B) l bs : mapM f l = Ok bs -> length bs = length l.
Proof.
  revert bs; induction l as [|a l IH]; cbn [mapM]; intros bs H.
  - injection H as <-. reflexivity.
  - apply bind_ok in H as (b & _ & H). apply bind_ok in H as (cs & H1 & H2).
    injection H2 as <-. cbn. rewrite (IH cs H1). reflexivity.
Qed.

Lemma mapM_np {A B} (f : A -> res B) l m : (forall a m, f a <> Panic m) -> mapM f l <> Panic m.
Proof.
  intros Hf. induction l as [|a l IH]; cbn [mapM]; [discriminate|].
  destruct (f a) eqn:E; cbn [bind]; try discriminate.
  - destruct (mapM f l); cbn [bind]; try discriminate. exact IH.
  - exfalso. eapply Hf. exact E.
Qed.

Lemma scalar_range s g r : groups s = Some g -> 1 <= scalar g r < g_q g.
Proof.
  intros H. pose proof (prime_ge_2 _ (gl_prime _ (Hlaws _ _ H))) as P. unfold scalar.
  destruct (Z.eq_dec (g_q g - 1) 1) as [E|E].
  - rewrite E, Z.mod_1_r. lia.
  - pose proof (Z.mod_pos_bound (Z.of_N r) (g_q g - 1)). lia.
Qed.

Lemma scalar_nz s g r : groups s = Some g -> scalar g r mod g_q g <> 0.
Proof. intros H. pose proof (scalar_range s g r H). rewrite Z.mod_small by lia. lia. Qed.

Lemma unblind_correct s g r t x : groups s = Some g ->
  g_mul g (g_inv g (scalar g r)) (g_mul g t (g_mul g (scalar g r) x)) = g_mul g t x.
Proof.
  intros H. pose proof (Hlaws _ _ H) as L. rewrite !(gl_mul _ L).
  rewrite <- (gl_mod _ L (_ * _)).
  replace (g_inv g (scalar g r) * t * scalar g r) with (g_inv g (scalar g r) * scalar g r * t) by ring.
  rewrite <- (Zmult_mod_idemp_l (g_inv g (scalar g r) * scalar g r) t).
  rewrite (gl_inv _ L) by (eapply scalar_nz; eauto).
  rewrite Z.mul_1_l. apply gl_mod. exact L.
Qed.

(** Multiplying by a unit does not give the identity. *)
Lemma mul_nonid s g a x : groups s = Some g -> a mod g_q g <> 0 -> x <> g_id g -> g_mul g a x <> g_id g.
Proof.
  intros H Ha Hx E. pose proof (Hlaws _ _ H) as L. apply Hx.
  rewrite <- (gl_one _ L x). rewrite <- (gl_mod _ L 1).
  pose proof (prime_ge_2 _ (gl_prime _ L)).
  rewrite (Z.mod_small 1) by lia.
  replace 1 with ((g_inv g a * a) mod g_q g) by (apply (gl_inv _ L); exact Ha).
  rewrite (gl_mod _ L), <- (gl_mul _ L), E. apply gl_id. exact L.
Qed.

Lemma inv_nz s g a : groups s = Some g -> a mod g_q g <> 0 -> g_inv g a mod g_q g <> 0.
Proof.
  intros H Ha E. pose proof (Hlaws _ _ H) as L. pose proof (gl_inv _ L a Ha) as I.
  rewrite Zmult_mod, E in I. rewrite Z.mul_0_l, Z.mod_0_l in I by (pose proof (prime_ge_2 _ (gl_prime _ L)); lia).
  discriminate.
Qed.

Lemma group_OPRF_laws : OPRF_laws group_OPRF.
Proof.
  constructor; cbn [group_OPRF client_suite server_suite elt_size blind evaluate unblind full_evaluate key_bytes key_parse PrivateKey Blind];
    unfold with_suite.
  - intros s x r H. destruct (groups s) as [g|]; [|discriminate]. cbn. eauto.
  - intros s k x r b info HC HS HB. destruct (groups s) as [g|] eqn:E; [|discriminate].
    cbn [combine mapM bind fst snd] in HB. apply Ok_inj in HB. injection HB as <-.
    destruct (tweaked g k info) as [t|m|m] eqn:T; cbn [bind mapM].
    + left. rewrite (gl_dec _ (Hlaws _ _ E)). cbn [bind]. do 2 eexists. split; [reflexivity|]. split; [reflexivity|].
      cbn [mapM combine fst snd bind length Nat.eqb andb].
      rewrite (gl_dec _ (Hlaws _ _ E)). cbn [bind]. rewrite (unblind_correct s) by exact E. reflexivity.
    + right. eauto.
    + unfold tweaked in T. destruct (_ =? _); discriminate.
  - intros s k x r b info e n HC HS HN HB HE. destruct (groups s) as [g|] eqn:E; [|discriminate].
    cbn [combine mapM bind fst snd] in HB. apply Ok_inj in HB. injection HB as <-. injection HN as <-.
    destruct (tweaked g k info) as [t|m|m] eqn:T; cbn [bind mapM] in HE; try discriminate.
    rewrite (gl_dec _ (Hlaws _ _ E)) in HE. cbn [bind] in HE. injection HE as <-.
    apply (gl_len _ (Hlaws _ _ E)). unfold tweaked in T.
    destruct (_ =? 0) eqn:Z; [discriminate|]. injection T as <-.
    apply (mul_nonid s); [exact E| |].
    + eapply inv_nz; [exact E|]. lia.
    + apply (mul_nonid s); [exact E|eapply scalar_nz; exact E|]. apply gl_hash, (Hlaws s), E.
  - destruct Hdefault as (g & -> & ->). reflexivity.
  - intros s k H. destruct (groups s) as [g|] eqn:E; [|discriminate].
    destruct (_ && _ && _) eqn:B in H; [|discriminate].
    apply andb_true_iff in B as [B B3]. apply andb_true_iff in B as [B1 B2].
    apply N.eqb_eq in B1. destruct k as [s' k]. cbn [fst snd] in *. subst s'. rewrite E.
    eexists. split; [reflexivity|]. rewrite (gl_key _ (Hlaws _ _ E)) by lia. reflexivity.
  - intros s m. destruct (groups s); discriminate.
  - intros s k l i m. destruct (groups s) as [g|]; [|discriminate].
    unfold tweaked. destruct (_ =? 0); cbn [bind]; [discriminate|].
    apply mapM_np. intros a m'. destruct (g_dec g a); discriminate.
  - intros s xs rs l i m. destruct (groups s) as [g|]; [|discriminate].
    destruct (_ && _); [|discriminate]. apply mapM_np. intros a m'. destruct (g_dec g _); discriminate.
  - intros s xs rs l i ys H. destruct (groups s) as [g|]; [|discriminate].
    destruct (_ && _) eqn:B; [|discriminate]. apply andb_true_iff in B as [B1 B2].
    apply Nat.eqb_eq in B1, B2. apply mapM_length in H. rewrite H, !combine_length. lia.
  - intros s k l i es H. destruct (groups s) as [g|]; [|discriminate].
    apply bind_ok in H as (t & _ & H). apply mapM_length in H. exact H.
Qed.

(** ** Blinding is perfectly hiding: whatever the input, the draws below
    q - 1 reach each possible blinded element exactly once. *)
Lemma blind_bijective s g x x' r b : groups s = Some g -> (Z.of_N r < g_q g - 1)%Z ->
  blind group_OPRF s [x] [r] = Ok [b] ->
  exists r', (Z.of_N r' < g_q g - 1)%Z /\ blind group_OPRF s [x'] [r'] = Ok [b]
    /\ forall r'', (Z.of_N r'' < g_q g - 1)%Z -> blind group_OPRF s [x'] [r''] = Ok [b] -> r'' = r'.
Proof.
  intros E Hr HB. pose proof (Hlaws _ _ E) as L. pose proof (prime_ge_2 _ (gl_prime _ L)) as P.
  cbn [group_OPRF blind] in *. unfold with_suite in *. rewrite E in *. cbn [combine mapM bind fst snd] in HB. apply Ok_inj in HB. injection HB as <-.
  set (y := g_mul g (scalar g r) (g_hash g x)).
  assert (Hy : y <> g_id g) by (apply (mul_nonid s); [exact E|eapply scalar_nz; exact E|apply gl_hash, L]).
  destruct (gl_gen _ L (g_hash g x') y (gl_hash _ L x')) as (a & Ha).
  assert (Hn : a mod g_q g <> 0).
  { intros Z0. apply Hy. rewrite <- Ha, <- (gl_mod _ L), Z0.
    replace 0 with (0 mod g_q g) by (apply Z.mod_0_l; lia). rewrite (gl_mod _ L).
    destruct (gl_gen _ L (g_hash g x') (g_id g) (gl_hash _ L x')) as (c & Hc).
    replace 0 with (0 * c) by ring. rewrite <- (gl_mul _ L), Hc. apply gl_id. exact L. }
  pose proof (Z.mod_pos_bound a (g_q g)) as Hm.
  exists (Z.to_N (a mod g_q g - 1)). split; [lia|]. cbn [combine mapM bind fst snd].
  assert (Hs : forall n, (Z.of_N n < g_q g - 1) -> scalar g n = 1 + Z.of_N n)
    by (intros n Hn'; unfold scalar; rewrite Z.mod_small by lia; reflexivity).
  split.
  - rewrite Hs by lia. rewrite Z2N.id by lia. replace (1 + (a mod g_q g - 1)) with (a mod g_q g) by lia.
    rewrite (gl_mod _ L), Ha. reflexivity.
  - intros r'' Hr'' H''. injection H'' as H''. apply (f_equal (g_dec g)) in H''.
    rewrite !(gl_dec _ L) in H''. injection H'' as H''. fold y in H''. rewrite <- Ha in H''.
    apply (gl_free _ L) in H''; [|apply gl_hash, L]. rewrite Hs in H'' by exact Hr''.
    rewrite (Z.mod_small (1 + Z.of_N r'')) in H'' by lia. lia.
Qed.

End Suites.

(** ** A concrete instance: the integers modulo 251 under addition, for each
    of the suites 3, 4, 5 with the element lengths of P-256, P-384, P-521.
    The identity is serialized as one byte, as circl does. *)
Definition toy_sum (s : bytes) : Z := fold_left (fun a c => 7 * a + Z.of_N (bN c) + 1) s 0.
Definition toy_inv (a : Z) : Z :=
  match find (fun b => (b * a) mod 251 =? 1) (map Z.of_nat (seq 1 250)) with Some b => b | None => 0 end.
(** Elements: residues. *)
Definition toyG := { x : Z | (0 <=? x) && (x <? 251) = true }.
Definition toy_mk (x : Z) : toyG.
Proof.
  refine (exist _ (x mod 251) _). pose proof (Z.mod_pos_bound x 251). lia.
Defined.
Definition toy_enc (len : nat) (x : toyG) : bytes :=
  if proj1_sig x =? 0 then [Byte.x00] else Byte.x02 :: zeros (len - 2) ++ [nB (Z.to_N (proj1_sig x))].
Definition toy_dec (len : nat) (b : bytes) : option toyG :=
  match b with
  | [Byte.x00] => Some (toy_mk 0)
  | Byte.x02 :: r =>
      let x := Z.of_N (bN (last r Byte.x00)) in
      if (Nat.eqb (length b) len) && bytes_eqb (firstn (len - 2) r) (zeros (len - 2)) && (0 <? x) && (x <? 251)
      then Some (toy_mk x) else None
  | _ => None
  end.
Definition toy_group (len : nat) : group := {|
  G := toyG; g_q := 251; g_id := toy_mk 0;
  g_mul := fun a x => toy_mk (a * proj1_sig x);
  g_inv := toy_inv;
  g_hash := fun s => toy_mk (1 + toy_sum s mod 250);
  g_tweak := fun s => toy_sum s mod 251;
  g_enc := toy_enc len; g_dec := toy_dec len; g_len := len;
  g_kenc := fun k => [nB (Z.to_N k)];
  g_kdec := fun d => match d with [b] => if (Z.of_N (bN b) <? 251) then Some (Z.of_N (bN b)) else None | _ => None end |}.
Definition toy_groups (s : N) : option group :=
  match s with
  | 3%N => Some (toy_group 33)
  | 4%N => Some (toy_group 49)
  | 5%N => Some (toy_group 67)
  | _ => None
  end.
Definition toy_OPRF : OPRF := group_OPRF toy_groups.

Lemma toy_ext (x y : toyG) : proj1_sig x = proj1_sig y -> x = y.
Proof.
  destruct x as [x Hx], y as [y Hy]; cbn. intros ->. f_equal.
  apply Eqdep_dec.UIP_dec. apply Bool.bool_dec.
Qed.

Lemma toy_val x : proj1_sig (toy_mk x) = x mod 251.
Proof. reflexivity. Qed.

Lemma toy_range (x : toyG) : 0 <= proj1_sig x < 251.
Proof. destruct x as [x Hx]; cbn. lia. Qed.

Lemma prime_251 : prime 251.
Proof.
  apply prime_alt. split; [lia|]. intros n Hn [k Hk].
  assert (C : forallb (fun n => negb (251 mod n =? 0)) (map Z.of_nat (seq 2 249)) = true) by (vm_compute; reflexivity).
  rewrite forallb_forall in C. specialize (C n).
  assert (I : In n (map Z.of_nat (seq 2 249))).
  { apply in_map_iff. exists (Z.to_nat n). split; [lia|]. apply in_seq. lia. }
  apply C in I. replace (251 mod n) with 0 in I; [discriminate|].
  rewrite Hk. symmetry. apply Z.mod_mul. lia.
Qed.

Lemma toy_inv_ok a : a mod 251 <> 0 -> (toy_inv a * a) mod 251 = 1.
Proof.
  intros H.
  assert (C : forallb (fun a => match find (fun b => (b * a) mod 251 =? 1) (map Z.of_nat (seq 1 250)) with
                                | Some b => true | None => false end) (map Z.of_nat (seq 1 250)) = true)
    by (vm_compute; reflexivity).
  rewrite forallb_forall in C. specialize (C (a mod 251)).
  assert (I : In (a mod 251) (map Z.of_nat (seq 1 250))).
  { pose proof (Z.mod_pos_bound a 251). apply in_map_iff. exists (Z.to_nat (a mod 251)). split; [lia|]. apply in_seq. lia. }
  apply C in I. unfold toy_inv.
  assert (E : find (fun b => (b * a) mod 251 =? 1) (map Z.of_nat (seq 1 250))
              = find (fun b => (b * (a mod 251)) mod 251 =? 1) (map Z.of_nat (seq 1 250))).
  { clear. induction (map Z.of_nat (seq 1 250)) as [|b l IH]; [reflexivity|]. cbn [find].
    rewrite Zmult_mod_idemp_r, IH. reflexivity. }
  rewrite E. destruct (find _ _) as [b|] eqn:F; [|discriminate].
  apply find_some in F as [_ F]. apply Z.eqb_eq in F. rewrite Zmult_mod_idemp_r in F. exact F.
Qed.

Lemma toy_laws len : (2 <= len)%nat -> group_laws (toy_group len).
Proof.
  intros Hl. constructor; cbn [toy_group G g_q g_id g_mul g_inv g_hash g_tweak g_enc g_dec g_len g_kenc g_kdec].
  - apply prime_251.
  - apply toy_inv_ok.
  - intros a x. apply toy_ext. rewrite !toy_val. apply Zmult_mod_idemp_l.
  - intros x. apply toy_ext. rewrite toy_val, Z.mul_1_l. apply Z.mod_small, toy_range.
  - intros a b x. apply toy_ext. rewrite !toy_val, Zmult_mod_idemp_r. f_equal. ring.
  - intros x y Hx. exists (toy_inv (proj1_sig x) * proj1_sig y). apply toy_ext. rewrite toy_val.
    assert (N : proj1_sig x mod 251 <> 0).
    { intros E. apply Hx. apply toy_ext. rewrite Z.mod_small in E by apply toy_range. rewrite E. reflexivity. }
    replace (toy_inv (proj1_sig x) * proj1_sig y * proj1_sig x)
      with (toy_inv (proj1_sig x) * proj1_sig x * proj1_sig y) by ring.
    rewrite <- Zmult_mod_idemp_l, toy_inv_ok by exact N. rewrite Z.mul_1_l. apply Z.mod_small, toy_range.
  - intros a b x Hx E. apply (f_equal (@proj1_sig _ _)) in E. rewrite !toy_val in E.
    assert (N : proj1_sig x mod 251 <> 0).
    { intros E'. apply Hx. apply toy_ext. rewrite Z.mod_small in E' by apply toy_range. rewrite E'. reflexivity. }
    assert (K : forall c, c mod 251 = ((c * proj1_sig x) mod 251 * toy_inv (proj1_sig x)) mod 251).
    { intros c. rewrite Zmult_mod_idemp_l.
      replace (c * proj1_sig x * toy_inv (proj1_sig x)) with ((toy_inv (proj1_sig x) * proj1_sig x) * c) by ring.
      rewrite <- Zmult_mod_idemp_l, toy_inv_ok by exact N. rewrite Z.mul_1_l. reflexivity. }
    rewrite (K a), (K b), E. reflexivity.
  - intros a. apply toy_ext. rewrite !toy_val, Z.mod_0_l, Z.mul_0_r by lia. reflexivity.
  - intros x E. apply (f_equal (@proj1_sig _ _)) in E. rewrite !toy_val in E.
    pose proof (Z.mod_pos_bound (toy_sum x) 250). rewrite Z.mod_small in E by lia.
    rewrite Z.mod_0_l in E by lia. lia.
  - intros x. unfold toy_enc. pose proof (toy_range x) as R.
    destruct (proj1_sig x =? 0) eqn:E.
    + cbn. f_equal. apply toy_ext. rewrite toy_val, Z.mod_0_l by lia. lia.
    + assert (B : bN (nB (Z.to_N (proj1_sig x))) = Z.to_N (proj1_sig x)) by (apply bN_nB_small; lia).
      unfold toy_dec.
      rewrite last_last, B, Z2N.id by lia.
      rewrite firstn_app_exact by apply repeat_length.
      cbn [length]. rewrite app_length. unfold zeros at 1. rewrite repeat_length. cbn [length].
      replace (Nat.eqb (S (len - 2 + 1)) len) with true by (symmetry; apply Nat.eqb_eq; lia).
      rewrite bytes_eqb_refl. replace (0 <? proj1_sig x) with true by lia.
      replace (proj1_sig x <? 251) with true by lia. cbn [andb]. f_equal.
      apply toy_ext. rewrite toy_val. apply Z.mod_small. exact R.
  - intros x Hx. unfold toy_enc. destruct (proj1_sig x =? 0) eqn:E.
    + exfalso. apply Hx. apply toy_ext. rewrite toy_val, Z.mod_0_l by lia. lia.
    + cbn [length]. rewrite app_length. unfold zeros. rewrite repeat_length. cbn [length]. lia.
  - intros k Hk. rewrite bN_nB_small by lia. rewrite Z2N.id by lia.
    replace (k <? 251) with true by lia. reflexivity.
Qed.

Lemma toy_groups_laws s g : toy_groups s = Some g -> group_laws g.
Proof.
  unfold toy_groups. destruct s as [|[[|[]|]|[|[]|]|]]; try discriminate; intros H; injection H as <-;
    apply toy_laws; lia.
Qed.

Lemma toy_OPRF_laws : OPRF_laws toy_OPRF.
Proof. apply group_OPRF_laws; [exact toy_groups_laws|]. exists (toy_group 33). split; reflexivity. Qed.

(** A usable server key. *)
Definition toy_key (s : N) : PrivateKey toy_OPRF := (s, 77).

(** The toy library evaluates every input under the key of the examples. *)
Lemma toy_full_ok x : exists k, full_evaluate toy_OPRF 3 (toy_key 3) x (str "MIGP oprf info") = Ok k.
Proof.
  cbn [full_evaluate toy_OPRF group_OPRF]. unfold with_suite. change (toy_groups 3) with (Some (toy_group 33)).
  assert (T : exists t, tweaked (toy_group 33) (toy_key 3) (str "MIGP oprf info") = Ok t) by (eexists; vm_compute; reflexivity).
  destruct T as (t & ->). cbn [bind]. eauto.
Qed.
