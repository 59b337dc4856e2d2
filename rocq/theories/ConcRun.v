(** * Running schedules of the concurrent store, to show concrete executions. *)
From Coq Require Import Lia.
From Verif Require Import Base BaseProofs KV KVProofs SpecConc KVConc.

(** What the scheduler picks: a thread starts a call, or goes one step on. *)
Inductive act :=
| AMake (t : nat) (v junk : bytes)
| AUse (t k i : nat)
| APut (t : nat) (id : bytes)
| AApp (t : nat) (id v : bytes)
| AGet (t : nat) (id : bytes)
| AGo (t : nat).

Definition mk (σ : state) (h : heap) (t : nat) (p : pc) : state := mkState (st_map σ) (st_writer σ) (st_readers σ) h (go σ t p).

Definition run_act (strict : bool) (σ : state) (a : act) : option (option event * state) :=
  match a with
  | AMake t v junk =>
      match th_pc (st_thr σ t) with
      | Idle => let r := alloc (st_heap σ) (v ++ junk) in
          Some (Some (EMake t v), mkState (st_map σ) (st_writer σ) (st_readers σ) (fst r)
            (upd (st_thr σ) t (mkThread Idle (Some (mkSlc (snd r) (length v) (length (v ++ junk))) :: th_held (st_thr σ t)) true)))
      | _ => None
      end
  | AUse t k i =>
      match th_pc (st_thr σ t), nth_error (th_held (st_thr σ t)) k with
      | Idle, Some (Some s) =>
          if (i <? s_len s)%nat then
            match nth_error (h_arr (st_heap σ) (s_arr s)) i with
            | Some b => Some (Some (EUse t k i b), σ)
            | None => None
            end
          else None
      | _, _ => None
      end
  | APut t id =>
      match th_pc (st_thr σ t) with
      | Idle =>
          if negb strict || th_own (st_thr σ t) || match newest (th_held (st_thr σ t)) with None => true | _ => false end then
            Some (Some (EInvoke t (CPut id (value_of (st_heap σ) (newest (th_held (st_thr σ t)))))),
              mkState (st_map σ) (st_writer σ) (st_readers σ) (st_heap σ)
                (upd (st_thr σ) t (mkThread (PutLock id (newest (th_held (st_thr σ t)))) (th_held (st_thr σ t)) false)))
          else None
      | _ => None
      end
  | AApp t id v => match th_pc (st_thr σ t) with Idle => Some (Some (EInvoke t (CAppend id v)), mk σ (st_heap σ) t (AppLock id v)) | _ => None end
  | AGet t id => match th_pc (st_thr σ t) with Idle => Some (Some (EInvoke t (CGet id)), mk σ (st_heap σ) t (GetLock id)) | _ => None end
  | AGo t =>
      match th_pc (st_thr σ t) with
      | Idle => None
      | PutLock id v => match st_writer σ, st_readers σ with None, [] => Some (None, mkState (st_map σ) (Some t) [] (st_heap σ) (go σ t (PutStore id v))) | _, _ => None end
      | PutStore id v => Some (None, mkState (set_key (st_map σ) id v) (st_writer σ) (st_readers σ) (st_heap σ) (go σ t PutUnlock))
      | PutUnlock => Some (None, mkState (st_map σ) None (st_readers σ) (st_heap σ) (go σ t RetDone))
      | AppLock id v => match st_writer σ, st_readers σ with None, [] => Some (None, mkState (st_map σ) (Some t) [] (st_heap σ) (go σ t (AppLoad id v))) | _, _ => None end
      | AppLoad id v => Some (None, mk σ (st_heap σ) t (AppGrow id v (st_map σ id)))
      | AppGrow id v old =>
          if (len0 old + length v <=? cap0 old)%nat then
            match old, v with
            | Some s, _ => Some (None, mk σ (st_heap σ) t (AppFill id v (s_arr s) (s_cap s) (s_len s) 0))
            | None, [] => Some (None, mk σ (st_heap σ) t (AppStore id [] None))
            | None, _ => None
            end
          else
            (* the growth policy chosen here: room for 4 bytes more *)
            let r := alloc (st_heap σ) (sl (value_of (st_heap σ) old) ++ zeros (length v + 4)) in
            Some (None, mk σ (fst r) t (AppFill id v (snd r) (len0 old + length v + 4) (len0 old) 0))
      | AppFill id v a cap base j =>
          match nth_error v j with
          | Some b => Some (None, mk σ (write (st_heap σ) a (base + j) b) t (AppFill id v a cap base (S j)))
          | None => if (j =? length v)%nat then Some (None, mk σ (st_heap σ) t (AppStore id v (Some (mkSlc a (base + length v) cap)))) else None
          end
      | AppStore id v new => Some (None, mkState (set_key (st_map σ) id new) (st_writer σ) (st_readers σ) (st_heap σ) (go σ t AppUnlock))
      | AppUnlock => Some (None, mkState (st_map σ) None (st_readers σ) (st_heap σ) (go σ t RetDone))
      | GetLock id => match st_writer σ with None => Some (None, mkState (st_map σ) None (t :: st_readers σ) (st_heap σ) (go σ t (GetLoad id))) | _ => None end
      | GetLoad id => Some (None, mk σ (st_heap σ) t (GetUnlock (st_map σ id)))
      | GetUnlock r => Some (None, mkState (st_map σ) (st_writer σ) (remove Nat.eq_dec t (st_readers σ)) (st_heap σ) (go σ t (RetValue r)))
      | RetDone => Some (Some (EReturn t RDone), mk σ (st_heap σ) t Idle)
      | RetValue r => Some (Some (EReturn t (RValue (value_of (st_heap σ) r))),
          mkState (st_map σ) (st_writer σ) (st_readers σ) (st_heap σ) (upd (st_thr σ) t (mkThread Idle (r :: th_held (st_thr σ t)) false)))
      end
  end.

Fixpoint run_acts (strict : bool) (σ : state) (tr : list event) (l : list act) : option (list event * state) :=
  match l with
  | [] => Some (tr, σ)
  | a :: r => match run_act strict σ a with Some (e, σ') => run_acts strict σ' (snoc tr e) r | None => None end
  end.

Lemma run_act_step strict σ a e σ' : run_act strict σ a = Some (e, σ') -> step strict σ e σ'.
Proof.
  intros H. destruct a as [t v junk|t k i|t id|t id v|t id|t]; cbn [run_act] in H.
  - destruct (th_pc (st_thr σ t)) eqn:P; try discriminate. apply Some_inj, pair_inj in H as [<- <-]. eapply st_make; [exact P|]. reflexivity.
  - destruct (th_pc (st_thr σ t)) eqn:P; try discriminate. destruct (nth_error (th_held (st_thr σ t)) k) as [[s|]|] eqn:K; try discriminate.
    destruct (i <? s_len s)%nat eqn:L; [|discriminate]. destruct (nth_error (h_arr (st_heap σ) (s_arr s)) i) as [b|] eqn:N; [|discriminate].
    apply Some_inj, pair_inj in H as [<- <-]. apply Nat.ltb_lt in L. eapply st_use; eassumption.
  - destruct (th_pc (st_thr σ t)) eqn:P; try discriminate.
    destruct (negb strict || th_own (st_thr σ t) || match newest (th_held (st_thr σ t)) with None => true | _ => false end) eqn:C; [|discriminate].
    apply Some_inj, pair_inj in H as [<- <-]. apply st_put_call; [exact P|]. intros -> N. destruct (newest (th_held (st_thr σ t))); [|contradiction].
    rewrite orb_false_r in C. exact C.
  - destruct (th_pc (st_thr σ t)) eqn:P; try discriminate. apply Some_inj, pair_inj in H as [<- <-]. apply st_app_call. exact P.
  - destruct (th_pc (st_thr σ t)) eqn:P; try discriminate. apply Some_inj, pair_inj in H as [<- <-]. apply st_get_call. exact P.
  - destruct (th_pc (st_thr σ t)) as [|id v|id v| |id v|id v|id v old|id v a cap base j|id v new| |id|id|r| |r] eqn:P; try discriminate.
    + destruct (st_writer σ) eqn:W; [discriminate|]. destruct (st_readers σ) eqn:R; [|discriminate]. apply Some_inj, pair_inj in H as [<- <-]. apply st_put_lock; assumption.
    + apply Some_inj, pair_inj in H as [<- <-]. apply st_put_store. exact P.
    + apply Some_inj, pair_inj in H as [<- <-]. apply st_put_unlock. exact P.
    + destruct (st_writer σ) eqn:W; [discriminate|]. destruct (st_readers σ) eqn:R; [|discriminate]. apply Some_inj, pair_inj in H as [<- <-]. apply st_app_lock; assumption.
    + apply Some_inj, pair_inj in H as [<- <-]. apply st_app_load. exact P.
    + destruct (len0 old + length v <=? cap0 old)%nat eqn:C.
      * apply Nat.leb_le in C. destruct old as [s|].
        -- apply Some_inj, pair_inj in H as [<- <-]. apply st_app_inplace; assumption.
        -- destruct v; [|discriminate]. apply Some_inj, pair_inj in H as [<- <-]. apply st_app_nil. exact P.
      * apply Nat.leb_gt in C. apply Some_inj, pair_inj in H as [<- <-]. eapply st_app_grow; [exact P|exact C|reflexivity].
    + destruct (nth_error v j) as [b|] eqn:N.
      * apply Some_inj, pair_inj in H as [<- <-]. apply st_app_fill; assumption.
      * destruct (j =? length v)%nat eqn:J; [|discriminate]. apply Nat.eqb_eq in J. subst j. apply Some_inj, pair_inj in H as [<- <-]. apply st_app_filled. exact P.
    + apply Some_inj, pair_inj in H as [<- <-]. apply st_app_store with (v := v). exact P.
    + apply Some_inj, pair_inj in H as [<- <-]. apply st_app_unlock. exact P.
    + destruct (st_writer σ) eqn:W; [discriminate|]. apply Some_inj, pair_inj in H as [<- <-]. apply st_get_lock; assumption.
    + apply Some_inj, pair_inj in H as [<- <-]. apply st_get_load. exact P.
    + apply Some_inj, pair_inj in H as [<- <-]. apply st_get_unlock. exact P.
    + apply Some_inj, pair_inj in H as [<- <-]. apply st_ret_done. exact P.
    + apply Some_inj, pair_inj in H as [<- <-]. apply st_ret_value. exact P.
Qed.

Lemma run_acts_exec strict l : forall σ tr tr' σ', exec strict tr σ -> run_acts strict σ tr l = Some (tr', σ') -> exec strict tr' σ'.
Proof.
  induction l as [|a l IH]; intros σ tr tr' σ' E H; cbn [run_acts] in H.
  - apply Some_inj, pair_inj in H as [<- <-]. exact E.
  - destruct (run_act strict σ a) as [[e σ1]|] eqn:R; [|discriminate]. eapply IH; [|exact H]. econstructor; [exact E|]. exact (run_act_step _ _ _ _ _ R).
Qed.
Lemma run_shows strict l tr : option_map fst (run_acts strict init [] l) = Some tr -> exists σ, exec strict tr σ.
Proof.
  intros H. destruct (run_acts strict init [] l) as [[tr' σ]|] eqn:R; [|discriminate]. apply Some_inj in H. cbn in H. subst tr'.
  exists σ. eapply run_acts_exec; [constructor|exact R].
Qed.

(** Thread [t] goes [n] steps on. *)
Definition goes (t n : nat) : list act := repeat (AGo t) n.
