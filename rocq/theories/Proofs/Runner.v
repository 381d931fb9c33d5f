From Verif.Lib Require Import Base.
From Verif.Model Require Import Runner.
From Verif.Spec Require Import Runner.

Definition fin (c : call) : bool := match c_pc c with Finished => true | _ => false end.
Definition open_calls (cs : list call) : nat := length (filter (fun c => negb (fin c)) cs).

Lemma set_pc_length cs : forall i p, length (set_pc cs i p) = length cs.
Proof. induction cs as [|c cs IH]; intros [|i] p; cbn; auto. Qed.
Lemma set_pc_open cs : forall i p c, nth_error cs i = Some c -> fin c = false ->
  open_calls (set_pc cs i p) = (open_calls cs - (match p with Finished => 1 | _ => 0 end))%nat /\ (0 < open_calls cs)%nat.
Proof.
  induction cs as [|c0 cs IH]; intros [|i] p c; cbn [nth_error set_pc]; try discriminate.
  - intros [= ->] F. unfold open_calls. cbn [filter]. rewrite F. cbn [negb length]. unfold fin at 1. cbn [c_pc].
    destruct p; cbn [negb length]; split; lia.
  - intros E F. destruct (IH i p c E F) as [E1 E2]. unfold open_calls in *. cbn [filter]. destruct (negb (fin c0)); cbn [length]; [|auto].
    split; [|lia]. rewrite E1. destruct p; lia.
Qed.

Lemma filter_len_app {A} (f : A -> bool) a b : length (filter f (a ++ b)) = (length (filter f a) + length (filter f b))%nat.
Proof. rewrite filter_app, app_length. reflexivity. Qed.

Lemma nth_last (cs : list call) c : nth_error (cs ++ [c]) (length cs) = Some c.
Proof. rewrite nth_error_app2 by lia. rewrite Nat.sub_diag. reflexivity. Qed.
Lemma set_pc_last (cs : list call) c p : set_pc (cs ++ [c]) (length cs) p = cs ++ [mkCall (c_run c) p].
Proof. induction cs as [|c0 cs IH]; cbn; [reflexivity|]. rewrite IH. reflexivity. Qed.
Lemma open_snoc cs c : open_calls (cs ++ [c]) = (open_calls cs + (if fin c then 0 else 1))%nat.
Proof. unfold open_calls. rewrite filter_len_app. cbn. destruct (fin c); reflexivity. Qed.

Ltac use_Y Y p := let A := fresh in let B := fresh in destruct (Y p) as [A B]; cbv beta iota in A.

(* one step keeps the balance of calls *)
Lemma step_calls s o : (open_calls (rs_calls (fst (rstep s o))) + length (filter is_return (snd (rstep s o)))
  = open_calls (rs_calls s) + (if is_call o then 1 else 0))%nat
  /\ length (rs_calls (fst (rstep s o))) = (length (rs_calls s) + (if is_call o then 1 else 0))%nat.
Proof.
  destruct o as [b|i a t|r t]; cbn [rstep is_call].
  - cbn [rs_calls rs_cur rs_runner rs_next].
    assert (X : forall s', rs_calls s' = rs_calls s ++ [mkCall b Waiting] ->
      (open_calls (rs_calls (fst (after_stop s' (length (rs_calls s)) b))) + length (filter is_return (snd (after_stop s' (length (rs_calls s)) b))) = open_calls (rs_calls s) + 1)%nat
      /\ length (rs_calls (fst (after_stop s' (length (rs_calls s)) b))) = (length (rs_calls s) + 1)%nat).
    { intros s' E. unfold after_stop. rewrite E. destruct b; cbn [fst snd rs_calls filter is_return length]; rewrite set_pc_last, open_snoc, app_length; cbn; lia. }
    destruct (rs_cur s) as [r|]; [|apply X; reflexivity]. unfold wait_check. cbn [rs_cur rs_runner rs_calls rs_next].
    case_if; [|apply X; reflexivity]. cbn [fst snd rs_calls filter length]. rewrite set_pc_last, open_snoc, app_length. cbn. lia.
  - destruct (nth_error (rs_calls s) i) as [c|] eqn:E; [|cbn; lia].
    destruct (fin c) eqn:F; [unfold fin in F; destruct (c_pc c); try discriminate; cbn; lia|].
    assert (Y : forall p, (open_calls (set_pc (rs_calls s) i p) = open_calls (rs_calls s) - (match p with Finished => 1 | _ => 0 end))%nat /\ (0 < open_calls (rs_calls s))%nat)
      by (intros; eapply set_pc_open; eassumption).
    assert (X : forall s', rs_calls s' = rs_calls s ->
      (open_calls (rs_calls (fst (after_stop s' i (c_run c)))) + length (filter is_return (snd (after_stop s' i (c_run c)))) = open_calls (rs_calls s) + 0)%nat
      /\ length (rs_calls (fst (after_stop s' i (c_run c)))) = (length (rs_calls s) + 0)%nat).
    { intros s' Es. unfold after_stop. rewrite Es. destruct (c_run c); cbn [fst snd rs_calls filter is_return length]; rewrite set_pc_length.
      - use_Y Y Fetching. lia.
      - use_Y Y Finished. lia. }
    destruct (c_pc c) eqn:P; cbn [fst snd].
    + unfold wait_check. destruct (rs_cur s) as [r|]; [|apply X; reflexivity]. case_if; [|apply X; reflexivity].
      cbn [fst snd rs_calls filter length]. rewrite set_pc_length. use_Y Y Waiting. lia.
    + cbn [fst snd rs_calls filter length]. rewrite set_pc_length. use_Y Y (Assigning (rs_next s)). lia.
    + cbn [fst snd rs_calls filter length]. rewrite set_pc_length. use_Y Y Starting. lia.
    + use_Y Y Finished. destruct (rs_cur s) as [r|]; [|cbn [fst snd rs_calls filter is_return length]; rewrite set_pc_length; lia].
      destruct a; [|cbn [fst snd rs_calls filter is_return length]; rewrite set_pc_length; lia].
      unfold local_tick. cbn [pr_trigger]. cbn [fst snd rs_calls app filter is_return length]. rewrite set_pc_length. lia.
    + unfold fin in F. rewrite P in F. discriminate.
  - destruct (pr_timers (rs_runner s r)); [cbn; lia|]. unfold local_tick. cbn [pr_trigger]. destruct (pr_trigger (rs_runner s r)); cbn [fst snd rs_calls filter is_return length]; lia.
Qed.

Lemma balance ops : (open_calls (rs_calls (state_after ops)) + length (filter is_return (observed ops)) = calls_made ops)%nat
  /\ length (rs_calls (state_after ops)) = calls_made ops.
Proof.
  unfold state_after, observed, calls_made. induction ops as [|ops o IH] using rev_ind_snoc; [split; reflexivity|].
  rewrite run_snoc. destruct (run rstep rinit ops) as [s es]. cbn [fst snd] in *. destruct (step_calls s o) as [A B].
  destruct (rstep s o) as [s1 e1]. cbn [fst snd] in *. rewrite !filter_len_app. cbn [filter]. destruct (is_call o); cbn [length] in *; lia.
Qed.

Lemma returned_open ops : all_returned ops <-> open_calls (rs_calls (state_after ops)) = 0%nat.
Proof. unfold all_returned. destruct (balance ops). lia. Qed.

(* The sequential invariant *)
Definition phase_ok (s : rstate) (p : pc) : Prop :=
  match p with
  | Waiting => exists r, rs_cur s = Some r /\ pr_trigger (rs_runner s r) = true
  | Fetching => rs_cur s = None
  | Assigning r => rs_cur s = None /\ (r < rs_next s)%nat /\ rs_runner s r = prun_new
  | Starting => exists r, rs_cur s = Some r /\ rs_runner s r = prun_new
  | Finished => True
  end.
Definition last_pc (cs : list call) : pc := match rev cs with [] => Finished | c :: _ => c_pc c end.
Record core (s : rstate) : Prop := mkCore {
  i_fresh : forall r, (rs_next s <= r)%nat -> rs_runner s r = prun_new;
  i_cur : forall r, rs_cur s = Some r -> (r < rs_next s)%nat;
  i_other : forall r, rs_cur s <> Some r -> pr_timers (rs_runner s r) = 0%nat;
  i_one : forall r, (pr_timers (rs_runner s r) <= 1)%nat /\ (pr_running (rs_runner s r) = false -> pr_timers (rs_runner s r) = 0%nat);
  i_done : open_calls (removelast (rs_calls s)) = 0%nat }.
Definition inv (s : rstate) : Prop := core s /\ phase_ok s (last_pc (rs_calls s)).

Lemma last_pc_snoc cs c : last_pc (cs ++ [c]) = c_pc c.
Proof. unfold last_pc. rewrite rev_app_distr. reflexivity. Qed.
Lemma removelast_snoc (cs : list call) c : removelast (cs ++ [c]) = cs.
Proof. apply removelast_last. Qed.

Lemma open_zero cs : open_calls cs = 0%nat -> forall i c, nth_error cs i = Some c -> fin c = true.
Proof.
  unfold open_calls. induction cs as [|c0 cs IH]; intros H [|i] c; cbn [nth_error]; try discriminate.
  - intros [= ->]. cbn [filter] in H. destruct (fin c); [reflexivity|discriminate].
  - apply IH. cbn [filter] in H. destruct (fin c0); [exact H|discriminate].
Qed.
Lemma open_zero_last cs : open_calls cs = 0%nat -> last_pc cs = Finished.
Proof.
  destruct cs as [|c cs _] using rev_ind; intros H; [reflexivity|]. rewrite last_pc_snoc. rewrite open_snoc in H.
  unfold fin in H. destruct (c_pc c); try lia. reflexivity.
Qed.

(* the call going on is the last one *)
Lemma active_last s i c : core s -> nth_error (rs_calls s) i = Some c -> fin c = false ->
  exists cs, rs_calls s = cs ++ [c] /\ i = length cs /\ open_calls cs = 0%nat.
Proof.
  intros I E F. pose proof (i_done s I) as D. destruct (rs_calls s) as [|c0 cs _] using rev_ind; [destruct i; discriminate|].
  rewrite removelast_snoc in D. exists cs.
  destruct (Nat.lt_ge_cases i (length cs)) as [L|L].
  - rewrite nth_error_app1 in E by assumption. apply (open_zero cs D) in E. congruence.
  - rewrite nth_error_app2 in E by assumption. destruct (i - length cs)%nat as [|k] eqn:EK; [|destruct k; discriminate].
    injection E as ->. repeat split; auto. lia.
Qed.

Lemma inv_after_stop s cs c : core s -> rs_cur s = None -> rs_calls s = cs ++ [c] ->
  inv (fst (after_stop s (length cs) (c_run c))) /\ no_ticks (snd (after_stop s (length cs) (c_run c))).
Proof.
  intros I E EC. pose proof (i_done s I) as D. rewrite EC, removelast_snoc in D.
  unfold after_stop. destruct (c_run c); cbn [fst snd]; (split; [split|intros r H; repeat destruct H as [H|H]; try discriminate; destruct H]).
  - constructor; cbn [rs_runner rs_next rs_cur rs_calls]; try apply I. rewrite EC, set_pc_last, removelast_snoc. assumption.
  - cbn [rs_calls]. rewrite EC, set_pc_last, last_pc_snoc. exact E.
  - constructor; cbn [rs_runner rs_next rs_cur rs_calls]; try apply I. rewrite EC, set_pc_last, removelast_snoc. assumption.
  - cbn [rs_calls]. rewrite EC, set_pc_last, last_pc_snoc. exact Logic.I.
Qed.

Lemma inv_wait s cs c : core s -> rs_calls s = cs ++ [c] -> (forall r, rs_cur s = Some r -> pr_trigger (rs_runner s r) = true) ->
  inv (fst (wait_check s (length cs) (c_run c))) /\ no_ticks (snd (wait_check s (length cs) (c_run c))).
Proof.
  intros I EC T. pose proof (i_done s I) as D. rewrite EC, removelast_snoc in D. unfold wait_check.
  assert (I' : (forall r, rs_cur s = Some r -> pr_running (rs_runner s r) = false) -> core (mkRstate (rs_runner s) (rs_next s) None (rs_calls s))).
  { intros H. constructor; cbn [rs_runner rs_next rs_cur rs_calls]; try apply I.
    - intros r0 Hr. discriminate.
    - intros r0 _. destruct (rs_cur s) as [r|] eqn:E.
      + destruct (Nat.eq_dec r0 r) as [->|N]; [apply (i_one s I); auto|]. apply (i_other s I). rewrite E. congruence.
      + apply (i_other s I). rewrite E. discriminate. }
  destruct (rs_cur s) as [r|] eqn:E.
  - destruct (pr_running (rs_runner s r)) eqn:R.
    + cbn [fst snd]. split; [split|intros r0 []].
      * constructor; cbn [rs_runner rs_next rs_cur rs_calls]; try apply I.
        -- intros r0 H. apply (i_cur s I). rewrite E. assumption.
        -- intros r0 H. apply (i_other s I). rewrite E. assumption.
        -- rewrite EC, set_pc_last, removelast_snoc. assumption.
      * cbn [rs_calls]. rewrite EC, set_pc_last, last_pc_snoc. cbn. exists r. auto.
    + apply inv_after_stop; [|reflexivity|exact EC]. apply I'. intros r0 [= <-]. assumption.
  - apply inv_after_stop; [|reflexivity|exact EC]. apply I'. discriminate.
Qed.

Lemma set_same f r p : set_runner f r p r = p.
Proof. unfold set_runner. rewrite Nat.eqb_refl. reflexivity. Qed.
Lemma set_other f r p x : x <> r -> set_runner f r p x = f x.
Proof. unfold set_runner. intros H. replace (x =? r)%nat with false by lia. reflexivity. Qed.

Lemma open_removelast cs : open_calls cs = 0%nat -> open_calls (removelast cs) = 0%nat.
Proof. destruct cs as [|c cs _] using rev_ind; intros H; [reflexivity|]. rewrite removelast_snoc. rewrite open_snoc in H. lia. Qed.

Lemma inv_init : inv rinit.
Proof. split; [constructor; cbn; auto; discriminate|exact I]. Qed.

Lemma inv_step s o : inv s -> (is_call o = true -> open_calls (rs_calls s) = 0%nat) -> inv (fst (rstep s o)).
Proof.
  intros [I P] H. destruct o as [b|i a t|r t]; cbn [rstep].
  - specialize (H eq_refl). cbn [rs_calls rs_cur rs_runner rs_next].
    set (s1 := mkRstate (rs_runner s) (rs_next s) (rs_cur s) (rs_calls s ++ [mkCall b Waiting])).
    assert (I1 : core s1).
    { constructor; cbn [s1 rs_runner rs_next rs_cur rs_calls]; try apply I. rewrite removelast_snoc. assumption. }
    destruct (rs_cur s) as [r|] eqn:E.
    + apply (inv_wait _ (rs_calls s) (mkCall b Waiting)); [|reflexivity|].
      * constructor; cbn [rs_runner rs_next rs_cur rs_calls].
        -- intros r0 L. assert (r < rs_next s)%nat by (apply (i_cur s I); assumption). rewrite set_other by lia. apply (i_fresh s I). assumption.
        -- intros r0 Hr. apply (i_cur s I). rewrite E. assumption.
        -- intros r0 Hr. rewrite set_other by congruence. apply (i_other s I). rewrite E. assumption.
        -- intros r0. destruct (Nat.eq_dec r0 r) as [->|N]; [rewrite set_same; apply (i_one s I)|rewrite set_other by assumption; apply (i_one s I)].
        -- rewrite removelast_snoc. assumption.
      * cbn [rs_runner rs_cur]. intros r0 [= <-]. rewrite set_same. reflexivity.
    + apply (inv_after_stop s1 (rs_calls s) (mkCall b Waiting)); [assumption|unfold s1; reflexivity|reflexivity].
  - destruct (nth_error (rs_calls s) i) as [c|] eqn:EN; [|split; assumption].
    destruct (fin c) eqn:F; [unfold fin in F; destruct (c_pc c); try discriminate; split; assumption|].
    destruct (active_last s i c I EN F) as (cs & EC & -> & Z). rewrite EC, last_pc_snoc in P.
    destruct (c_pc c) eqn:PC; cbn [phase_ok] in P; cbn [fst].
    + apply inv_wait; auto. intros r Hr. destruct P as (r' & E' & T'). congruence.
    + split.
      * constructor; cbn [rs_runner rs_next rs_cur rs_calls].
        -- intros r L. rewrite set_other by lia. apply (i_fresh s I). lia.
        -- intros r Hr. apply (i_cur s I) in Hr. lia.
        -- intros r Hr. destruct (Nat.eq_dec r (rs_next s)) as [->|N]; [rewrite set_same; reflexivity|rewrite set_other by assumption; apply (i_other s I); assumption].
        -- intros r. destruct (Nat.eq_dec r (rs_next s)) as [->|N]; [rewrite set_same; cbn; auto|rewrite set_other by assumption; apply (i_one s I)].
        -- rewrite EC, set_pc_last, removelast_snoc. assumption.
      * cbn [rs_calls]. rewrite EC, set_pc_last, last_pc_snoc. cbn. rewrite set_same. auto.
    + destruct P as (E & L & N). split.
      * constructor; cbn [rs_runner rs_next rs_cur rs_calls]; try apply I.
        -- intros r0 [= <-]. assumption.
        -- intros r0 Hr. apply (i_other s I). rewrite E. discriminate.
        -- rewrite EC, set_pc_last, removelast_snoc. assumption.
      * cbn [rs_calls]. rewrite EC, set_pc_last, last_pc_snoc. cbn. eauto.
    + destruct P as (r & E & N). rewrite E, N. cbn [pr_timers prun_new]. pose proof (i_cur s I r E) as L.
      assert (X : forall p, (pr_timers p <= 1)%nat -> (pr_running p = false -> pr_timers p = 0%nat) ->
        inv (mkRstate (set_runner (rs_runner s) r p) (rs_next s) (Some r) (set_pc (rs_calls s) (length cs) Finished))).
      { intros p H1 H2. split; [|cbn [rs_calls]; rewrite EC, set_pc_last, last_pc_snoc; exact Logic.I].
        constructor; cbn [rs_runner rs_next rs_cur rs_calls].
        - intros r0 L0. rewrite set_other by lia. apply (i_fresh s I). assumption.
        - intros r0 [= <-]. assumption.
        - intros r0 Hr. rewrite set_other by congruence. apply (i_other s I). rewrite E. assumption.
        - intros r0. destruct (Nat.eq_dec r0 r) as [->|Nr]; [rewrite set_same; auto|rewrite set_other by assumption; apply (i_one s I)].
        - rewrite EC, set_pc_last, removelast_snoc. assumption. }
      destruct a; [|apply X; cbn; auto; discriminate]. unfold local_tick. cbn [pr_trigger fst]. apply X; cbn; [lia|discriminate].
    + unfold fin in F. rewrite PC in F. discriminate.
  - destruct (pr_timers (rs_runner s r)) as [|n] eqn:E; [split; assumption|].
    assert (n = 0%nat) as -> by (pose proof (proj1 (i_one s I r)); lia).
    assert (Ec : rs_cur s = Some r).
    { destruct (rs_cur s) as [r'|] eqn:EC.
      - destruct (Nat.eq_dec r' r) as [->|N]; [reflexivity|]. rewrite (i_other s I) in E by (rewrite EC; congruence). discriminate.
      - rewrite (i_other s I) in E by (rewrite EC; discriminate). discriminate. }
    pose proof (i_cur s I r Ec) as L.
    unfold local_tick. cbn [pr_trigger pr_running pr_timers].
    assert (X : forall p, (pr_timers p <= 1)%nat -> (pr_running p = false -> pr_timers p = 0%nat) -> (pr_trigger (rs_runner s r) = true -> pr_trigger p = true) ->
        inv (mkRstate (set_runner (rs_runner s) r p) (rs_next s) (rs_cur s) (rs_calls s))).
    { intros p H1 H2 H3. split.
      - constructor; cbn [rs_runner rs_next rs_cur rs_calls]; try apply I.
        + intros r0 L0. rewrite set_other by lia. apply (i_fresh s I). assumption.
        + intros r0 Hr. rewrite set_other by congruence. apply (i_other s I). assumption.
        + intros r0. destruct (Nat.eq_dec r0 r) as [->|Nr]; [rewrite set_same; auto|rewrite set_other by assumption; apply (i_one s I)].
      - cbn [rs_calls]. destruct (last_pc (rs_calls s)) eqn:EP; cbn [phase_ok rs_cur rs_next rs_runner] in *.
        + destruct P as (r' & E' & T'). exists r'. split; [assumption|]. assert (r' = r) as -> by congruence. rewrite set_same. auto.
        + assumption.
        + destruct P. congruence.
        + destruct P as (r' & E' & T'). assert (r' = r) as -> by congruence. rewrite T' in E. discriminate.
        + assumption. }
    pose proof (i_one s I r) as [_ Hr].
    destruct (pr_trigger (rs_runner s r)) eqn:T; cbn [fst]; apply X; cbn; auto; try lia; try discriminate; intros Hf; rewrite Hr in E by assumption; discriminate.
Qed.

Lemma seq_snoc ops o : one_at_a_time (ops ++ [o]) -> one_at_a_time ops /\ (is_call o = true -> all_returned ops).
Proof.
  intros H. split.
  - intros ops1 b ops2 ->. apply (H ops1 b (ops2 ++ [o])). rewrite <- app_assoc. reflexivity.
  - destruct o; try discriminate. intros _. apply (H ops run []). reflexivity.
Qed.
Lemma state_snoc ops o : state_after (ops ++ [o]) = fst (rstep (state_after ops) o).
Proof. unfold state_after. rewrite run_snoc. destruct (run rstep rinit ops). cbn. destruct (rstep r o). reflexivity. Qed.
Lemma state_app ops ops2 : state_after (ops ++ ops2) = fst (run rstep (state_after ops) ops2).
Proof. unfold state_after. rewrite run_app. destruct (run rstep rinit ops). reflexivity. Qed.

Lemma seq_inv ops : one_at_a_time ops -> inv (state_after ops).
Proof.
  induction ops as [|ops o IH] using rev_ind_snoc; intros H; [exact inv_init|].
  destruct (seq_snoc _ _ H) as [H1 H2]. rewrite state_snoc. apply inv_step; [auto|]. intros E. apply returned_open. auto.
Qed.

Lemma single_loop ops r r' : one_at_a_time ops -> (loops (state_after ops) r <= 1)%nat
  /\ ((0 < loops (state_after ops) r)%nat -> (0 < loops (state_after ops) r')%nat -> r = r').
Proof.
  intros H. destruct (seq_inv ops H) as [I _]. unfold loops. split; [apply (i_one _ I)|].
  intros A B. destruct (rs_cur (state_after ops)) as [x|] eqn:E.
  - destruct (Nat.eq_dec r x) as [->|N]; [|rewrite (i_other _ I r) in A by congruence; lia].
    destruct (Nat.eq_dec r' x) as [->|N']; [reflexivity|rewrite (i_other _ I r') in B by congruence; lia].
  - rewrite (i_other _ I r) in A by congruence. lia.
Qed.

(* Nothing happens without a runner, and nothing ticks when stopping *)
Definition quiet (s : rstate) : Prop := forall r, pr_timers (rs_runner s r) = 0%nat \/ pr_trigger (rs_runner s r) = true.
Lemma quiet_step s o : open_calls (rs_calls s) = 0%nat -> quiet s -> is_call o = false ->
  quiet (fst (rstep s o)) /\ open_calls (rs_calls (fst (rstep s o))) = 0%nat /\ no_ticks (snd (rstep s o)).
Proof.
  intros Z Q C. destruct o as [b|i a t|r t]; [discriminate| |]; cbn [rstep].
  - destruct (nth_error (rs_calls s) i) as [c|] eqn:EN; [|split; [assumption|split; [assumption|intros r []]]].
    pose proof (open_zero _ Z _ _ EN) as F. unfold fin in F. destruct (c_pc c); try discriminate.
    split; [assumption|split; [assumption|intros r []]].
  - destruct (pr_timers (rs_runner s r)) as [|n] eqn:E; [split; [assumption|split; [assumption|intros r0 []]]|].
    destruct (Q r) as [X|X]; [congruence|]. unfold local_tick. cbn [pr_trigger]. rewrite X. cbn [fst snd rs_calls].
    split; [|split; [assumption|intros r0 []]]. intros r0. cbn [rs_runner].
    destruct (Nat.eq_dec r0 r) as [->|N]; [rewrite set_same; cbn; auto|rewrite set_other by assumption; auto].
Qed.
Lemma quiet_run ops : forall s, open_calls (rs_calls s) = 0%nat -> quiet s -> no_calls ops -> no_ticks (snd (run rstep s ops)).
Proof.
  induction ops as [|o ops IH]; intros s Z Q N; [intros r []|]. inversion N as [|? ? N1 N2]; subst. rewrite run_cons. cbn [snd].
  destruct (quiet_step s o Z Q N1) as (A & B & C). intros r Hr. apply in_app_or in Hr. destruct Hr as [Hr|Hr]; [eapply C; eauto|].
  exact (IH _ B A N2 r Hr).
Qed.

(* after stop() has returned *)
Lemma stop_phase s cs : inv s -> rs_calls s = cs ++ [mkCall false Finished] -> forall o, is_call o = false ->
  rs_cur s = None -> rs_cur (fst (rstep s o)) = None /\ rs_calls (fst (rstep s o)) = rs_calls s.
Proof.
  intros [I P] EC o C E. destruct o as [b|i a t|r t]; [discriminate| |]; cbn [rstep].
  - destruct (nth_error (rs_calls s) i) as [c|] eqn:EN; [|auto].
    assert (fin c = true) as F.
    { pose proof (i_done s I) as D. rewrite EC, removelast_snoc in D. apply (open_zero (rs_calls s)) with i; [|assumption]. rewrite EC, open_snoc. cbn. lia. }
    unfold fin in F. destruct (c_pc c); try discriminate. auto.
  - destruct (pr_timers (rs_runner s r)); [auto|]. unfold local_tick. cbn [pr_trigger]. case_if; cbn; auto.
Qed.

(* during and after a call of stop(): while it waits, the current runner is told to stop; when it has returned, there is none *)
Definition stopping (s : rstate) : Prop :=
  exists cs, (rs_calls s = cs ++ [mkCall false Waiting] /\ exists r, rs_cur s = Some r /\ pr_trigger (rs_runner s r) = true)
          \/ (rs_calls s = cs ++ [mkCall false Finished] /\ rs_cur s = None).
Lemma after_stop_stopping s cs : rs_calls s = cs ++ [mkCall false Waiting] -> rs_cur s = None -> stopping (fst (after_stop s (length cs) false)).
Proof. intros E1 E2. exists cs. right. cbn. rewrite E1, set_pc_last. auto. Qed.
Lemma wait_stopping s cs : rs_calls s = cs ++ [mkCall false Waiting] -> (forall r, rs_cur s = Some r -> pr_trigger (rs_runner s r) = true) ->
  stopping (fst (wait_check s (length cs) false)).
Proof.
  intros E1 T. unfold wait_check. destruct (rs_cur s) as [r|] eqn:E2; [|apply after_stop_stopping; auto].
  case_if; [|apply after_stop_stopping; auto]. exists cs. left. cbn. rewrite E1, set_pc_last. eauto.
Qed.
Lemma stopping_begin s : stopping (fst (rstep s (RCall false))).
Proof.
  cbn [rstep rs_cur rs_calls rs_runner rs_next]. destruct (rs_cur s) as [r|] eqn:E.
  - apply wait_stopping; [reflexivity|]. cbn [rs_cur rs_runner]. intros r0 [= <-]. rewrite set_same. reflexivity.
  - apply after_stop_stopping; reflexivity.
Qed.
Lemma stopping_step s o : inv s -> stopping s -> is_call o = false -> stopping (fst (rstep s o)).
Proof.
  intros I [cs H] C. destruct o as [b|i a t|r t]; [discriminate| |].
  - cbn [rstep]. destruct (nth_error (rs_calls s) i) as [c|] eqn:EN; [|exists cs; exact H].
    destruct (fin c) eqn:F; [unfold fin in F; destruct (c_pc c); try discriminate; exists cs; exact H|].
    destruct (active_last s i c (proj1 I) EN F) as (cs' & EC & -> & Z).
    destruct H as [[H (r & Er & Tr)]|[H Er]].
    + rewrite EC in H. apply app_inj_tail in H. destruct H as [-> ->]. cbn [c_pc c_run].
      apply wait_stopping; [assumption|]. intros r0 Hr. congruence.
    + rewrite EC in H. apply app_inj_tail in H. destruct H as [-> ->]. discriminate.
  - destruct H as [[H (r0 & Er & Tr)]|[H Er]].
    + cbn [rstep]. destruct (pr_timers (rs_runner s r)) as [|n] eqn:E; [exists cs; left; eauto|].
      unfold local_tick. cbn [pr_trigger].
      exists cs. left. destruct (pr_trigger (rs_runner s r)) eqn:T; cbn [fst rs_calls rs_cur rs_runner]; (split; [assumption|]); exists r0; (split; [assumption|]).
      * destruct (Nat.eq_dec r0 r) as [->|N]; [rewrite set_same; reflexivity|rewrite set_other by assumption; assumption].
      * destruct (Nat.eq_dec r0 r) as [->|N]; [congruence|rewrite set_other by assumption; assumption].
    + destruct (stop_phase s cs I H (RTimer r t) eq_refl Er) as [A B]. exists cs. right. rewrite A, B. auto.
Qed.
Lemma seq_app ops ops2 : one_at_a_time (ops ++ ops2) -> one_at_a_time ops.
Proof. intros H ops1 b ops3 ->. apply (H ops1 b (ops3 ++ ops2)). rewrite <- app_assoc. reflexivity. Qed.

Lemma stopping_after ops : forall ops1, one_at_a_time (ops1 ++ RCall false :: ops) -> no_calls ops -> stopping (state_after (ops1 ++ RCall false :: ops)).
Proof.
  induction ops as [|ops o IH] using rev_ind_snoc; intros ops1 S N.
  - rewrite state_snoc. apply stopping_begin.
  - assert (E : ops1 ++ RCall false :: ops ++ [o] = (ops1 ++ RCall false :: ops) ++ [o]) by (rewrite <- app_assoc; reflexivity).
    rewrite E in *. rewrite state_snoc. apply Forall_app in N. destruct N as [N1 N2]. inversion N2; subst.
    pose proof (seq_app _ _ S) as S1. apply stopping_step; [apply seq_inv; assumption|apply IH; assumption|assumption].
Qed.

Lemma after_stop_silent ops ops2 : one_at_a_time ops -> all_returned ops -> last_call ops false -> no_calls ops2 -> no_ticks (observed_then ops ops2).
Proof.
  intros S R (o1 & o2 & -> & N) N2. unfold observed_then. apply returned_open in R.
  apply quiet_run; [assumption| |assumption].
  destruct (stopping_after o2 o1 S N) as [cs [[H _]|[H E]]]; [rewrite H, open_snoc in R; cbn in R; lia|].
  intros r. left. apply (i_other _ (proj1 (seq_inv _ S))). congruence.
Qed.

(* while stop() waits, and once it has returned, nothing ticks either *)
Lemma stop_silent ops ops2 : one_at_a_time (ops ++ [RCall false]) -> no_calls ops2 -> no_ticks (observed_then (ops ++ [RCall false]) ops2).
Proof.
  intros S N. unfold observed_then.
  assert (H : stopping (state_after (ops ++ [RCall false]))) by (apply (stopping_after [] ops S); constructor).
  assert (I := seq_inv _ S). revert H I. generalize (state_after (ops ++ [RCall false])). clear S.
  induction N as [|o ops2 N1 N2 IH]; intros s H I; [intros r []|]. rewrite run_cons. cbn [snd].
  intros r Hr. apply in_app_or in Hr. destruct Hr as [Hr|Hr].
  - clear IH. destruct o as [b|i a t|r0 t]; [discriminate| |]; cbn [rstep] in Hr.
    + destruct (nth_error (rs_calls s) i) as [c|] eqn:EN; [|destruct Hr].
      destruct (fin c) eqn:F; [unfold fin in F; destruct (c_pc c); try discriminate; destruct Hr|].
      destruct (active_last s i c (proj1 I) EN F) as (cs' & EC & -> & Z). destruct H as [cs [[H (r' & Er & Tr)]|[H Er]]]; rewrite EC in H; apply app_inj_tail in H; destruct H as [-> ->]; [|discriminate].
      cbn [c_pc c_run] in Hr. apply (proj2 (inv_wait s cs (mkCall false Waiting) (proj1 I) EC ltac:(intros; congruence)) r Hr).
    + destruct (pr_timers (rs_runner s r0)) as [|n] eqn:E; [destruct Hr|].
      assert (T : pr_trigger (rs_runner s r0) = true).
      { destruct H as [cs [[H (r' & Er & Tr)]|[H Er]]].
        - destruct (Nat.eq_dec r0 r') as [->|Nr]; [assumption|]. rewrite (i_other _ (proj1 I)) in E by congruence. discriminate.
        - rewrite (i_other _ (proj1 I)) in E by congruence. discriminate. }
      unfold local_tick in Hr. cbn [pr_trigger] in Hr. rewrite T in Hr. destruct Hr.
  - apply (IH (fst (rstep s o))) with r; [|apply inv_step; [assumption|congruence]|assumption]. apply stopping_step; assumption.
Qed.

(* after an exception in a tick *)
Lemma crash_silent ops r ops2 : one_at_a_time ops -> In (Ticked r) (snd (rstep (state_after ops) (RTimer r false))) -> no_calls ops2 ->
  no_ticks (observed_then (ops ++ [RTimer r false]) ops2).
Proof.
  intros S H N. unfold observed_then. rewrite state_snoc. destruct (seq_inv _ S) as [I P]. set (s := state_after ops) in *.
  cbn [rstep] in *. destruct (pr_timers (rs_runner s r)) as [|n] eqn:E; [destruct H|].
  unfold local_tick in *. cbn [pr_trigger] in *. destruct (pr_trigger (rs_runner s r)) eqn:T; [destruct H|]. cbn [fst snd].
  assert (Ec : rs_cur s = Some r).
  { destruct (rs_cur s) as [r'|] eqn:EC.
    - destruct (Nat.eq_dec r' r) as [->|Nr]; [reflexivity|]. rewrite (i_other s I) in E by (rewrite EC; congruence). discriminate.
    - rewrite (i_other s I) in E by (rewrite EC; discriminate). discriminate. }
  assert (Z : open_calls (rs_calls s) = 0%nat).
  { destruct (rs_calls s) as [|c cs _] eqn:EC using rev_ind; [reflexivity|]. rewrite open_snoc.
    pose proof (i_done s I) as D. rewrite EC, removelast_snoc in D. rewrite D. rewrite last_pc_snoc in P. unfold fin.
    destruct (c_pc c); cbn [phase_ok] in P; [destruct P as (x & Ex & Tx)|rewrite P in Ec|destruct P as (P & _)|destruct P as (x & Ex & Tx)|reflexivity]; try congruence.
    assert (x = r) as -> by congruence. rewrite Tx in E. discriminate. }
  apply quiet_run; [exact Z| |assumption]. intros r0. cbn [rs_runner].
  destruct (Nat.eq_dec r0 r) as [->|Nr]; [rewrite set_same; cbn; auto|]. left. rewrite set_other by assumption. apply (i_other s I). congruence.
Qed.

(* running: after run() has returned without an exception, until the next call *)
Definition ticking (s : rstate) : Prop := exists r, rs_cur s = Some r /\ pr_trigger (rs_runner s r) = false /\ pr_timers (rs_runner s r) = 1%nat.
Lemma ticking_step s o : open_calls (rs_calls s) = 0%nat -> is_call o = false -> (match o with RTimer _ ok => ok = true | _ => True end) -> inv s ->
  ticking s -> ticking (fst (rstep s o)).
Proof.
  intros Z C K [I _] (r & E & T & M). destruct o as [b|i a t|r0 t]; [discriminate| |]; cbn [rstep].
  - destruct (nth_error (rs_calls s) i) as [c|] eqn:EN; [|exists r; auto].
    pose proof (open_zero _ Z _ _ EN) as F. unfold fin in F. destruct (c_pc c); try discriminate. exists r; auto.
  - subst t. destruct (Nat.eq_dec r0 r) as [->|N].
    + rewrite M. unfold local_tick. cbn [pr_trigger pr_timers]. rewrite T. cbn [fst]. exists r. cbn [rs_cur rs_runner]. rewrite set_same. auto.
    + rewrite (i_other s I) by congruence. exists r; auto.
Qed.

(* what the last call does to the loop, for a call of run() *)
Definition started (i : nat) (s : rstate) (es : list robs) : Prop := In (Returned i false) es -> ticking s.

Lemma started_step ops o i : one_at_a_time (ops ++ [o]) -> is_call o = false -> (match o with RTimer _ ok => ok = true | _ => True end) ->
  calls_made ops = S i ->
  started i (state_after ops) (observed ops) -> (In (Returned i false) (observed ops) -> open_calls (rs_calls (state_after ops)) = 0%nat) ->
  (exists c, nth_error (rs_calls (state_after ops)) i = Some c /\ c_run c = true) ->
  started i (state_after (ops ++ [o])) (observed (ops ++ [o])) /\ (In (Returned i false) (observed (ops ++ [o])) -> open_calls (rs_calls (state_after (ops ++ [o]))) = 0%nat)
  /\ exists c, nth_error (rs_calls (state_after (ops ++ [o]))) i = Some c /\ c_run c = true.
Proof.
  intros S C K L H1 H2 (c & EN & R). destruct (seq_snoc _ _ S) as [S1 _]. pose proof (seq_inv _ S1) as I.
  pose proof (proj2 (balance ops)) as B. rewrite L in B.
  rewrite state_snoc. replace (observed (ops ++ [o])) with (observed ops ++ snd (rstep (state_after ops) o))
    by (unfold observed, state_after; rewrite run_snoc; destruct (run rstep rinit ops) as [s es]; cbn [fst snd]; destruct (rstep s o); reflexivity).
  revert H1 H2 EN I B. generalize (observed ops). generalize (state_after ops). intros s es H1 H2 EN I B. unfold started in *.
  assert (X : In (Returned i false) es -> ticking (fst (rstep s o)) /\ open_calls (rs_calls (fst (rstep s o))) = 0%nat).
  { intros X. split; [apply ticking_step; auto|]. pose proof (proj1 (step_calls s o)) as Y. rewrite C, (H2 X) in Y. lia. }
  destruct o as [b|j a t|r t]; [discriminate| |].
  - cbn [rstep] in *. destruct (nth_error (rs_calls s) j) as [c'|] eqn:EJ; [|cbn [fst snd] in *; rewrite app_nil_r; repeat split; [apply X; assumption|apply X; assumption|eauto]].
    destruct (fin c') eqn:F; [unfold fin in F; destruct (c_pc c'); try discriminate; cbn [fst snd] in *; rewrite app_nil_r; repeat split; [apply X; assumption|apply X; assumption|eauto]|].
    destruct (active_last s j c' (proj1 I) EJ F) as (cs & EC & -> & Z).
    assert (i = length cs) as -> by (rewrite EC, app_length in B; cbn in B; lia).
    rewrite EC, nth_last in EN. injection EN as ->. rewrite EC in EJ.
    assert (N0 : ~ In (Returned (length cs) false) es).
    { intros Y. specialize (H2 Y). rewrite EC, open_snoc, F in H2. lia. }
    assert (G : forall p, nth_error (set_pc (rs_calls s) (length cs) p) (length cs) = Some (mkCall true p)) by (intros; rewrite EC, set_pc_last, nth_last, R; reflexivity).
    assert (AS : forall s', rs_calls s' = rs_calls s -> let x := after_stop s' (length cs) (c_run c) in
        (In (Returned (length cs) false) (es ++ snd x) -> ticking (fst x)) /\ (In (Returned (length cs) false) (es ++ snd x) -> open_calls (rs_calls (fst x)) = 0%nat)
        /\ exists c0, nth_error (rs_calls (fst x)) (length cs) = Some c0 /\ c_run c0 = true).
    { intros s' Es. unfold after_stop. rewrite R. cbn [fst snd rs_calls]. rewrite app_nil_r, Es. repeat split; [tauto|tauto|]. eexists. rewrite G. split; reflexivity. }
    destruct (c_pc c) eqn:P.
    + unfold wait_check. destruct (rs_cur s) as [r|]; [|apply AS; reflexivity]. destruct (pr_running (rs_runner s r)); [|apply AS; reflexivity].
      cbn [fst snd rs_calls]. rewrite app_nil_r. repeat split; [tauto|tauto|]. eexists. rewrite G. split; reflexivity.
    + cbn [fst snd rs_calls]. rewrite app_nil_r. repeat split; [tauto|tauto|]. eexists. rewrite G. split; reflexivity.
    + cbn [fst snd rs_calls]. rewrite app_nil_r. repeat split; [tauto|tauto|]. eexists. rewrite G. split; reflexivity.
    + destruct I as [Ic Ip]. rewrite EC, last_pc_snoc, P in Ip. destruct Ip as (r & Er & Nr). rewrite Er, Nr. cbn [pr_timers prun_new].
      assert (ZZ : open_calls (set_pc (rs_calls s) (length cs) Finished) = 0%nat) by (rewrite EC, set_pc_last, open_snoc; cbn; lia).
      destruct a; [|cbn [fst snd rs_calls]; repeat split; [intros Y; apply in_app_or in Y; destruct Y as [Y|[Y|[]]]; [tauto|discriminate]|auto|eexists; rewrite G; split; reflexivity]].
      unfold local_tick. cbn [pr_trigger pr_running pr_timers fst snd rs_calls app]. split; [|split; [auto|eexists; rewrite G; split; reflexivity]].
      intros Y. exists r. cbn [rs_cur rs_runner]. rewrite set_same. cbn. split; [reflexivity|]. split; [|reflexivity].
      apply in_app_or in Y. destruct Y as [Y|[Y|[Y|[]]]]; [tauto|discriminate|]. injection Y as Y. exact Y.
    + unfold fin in F. rewrite P in F. discriminate.
  - assert (NR : ~ In (Returned i false) (snd (rstep s (RTimer r t)))).
    { cbn [rstep]. destruct (pr_timers (rs_runner s r)); [intros []|]. unfold local_tick. cbn [pr_trigger]. destruct (pr_trigger (rs_runner s r)); [intros []|intros [Y|[]]; discriminate]. }
    split; [|split].
    + intros Y. apply in_app_or in Y. destruct Y as [Y|Y]; [apply X; assumption|tauto].
    + intros Y. apply in_app_or in Y. destruct Y as [Y|Y]; [apply X; assumption|tauto].
    + exists c. split; [|assumption]. cbn [rstep]. destruct (pr_timers (rs_runner s r)); [assumption|]. unfold local_tick. cbn [pr_trigger].
      destruct (pr_trigger (rs_runner s r)); assumption.
Qed.

Lemma returned_range ops i f : In (Returned i f) (observed ops) -> (i < calls_made ops)%nat.
Proof.
  rewrite <- (proj2 (balance ops)). unfold observed, state_after. induction ops as [|ops o IH] using rev_ind_snoc; [intros []|].
  rewrite run_snoc. destruct (run rstep rinit ops) as [s es]. cbn [fst snd] in *. pose proof (proj2 (step_calls s o)) as L.
  assert (X : In (Returned i f) (snd (rstep s o)) -> (i < length (rs_calls (fst (rstep s o))))%nat).
  { rewrite L. destruct o as [b|j a t|r t]; cbn [rstep is_call].
    - cbn [rs_calls rs_cur]. assert (Y : forall s' x, In (Returned i f) (snd (after_stop s' (length (rs_calls s)) x)) -> (i < length (rs_calls s) + 1)%nat).
      { intros s' x. unfold after_stop. destruct x; cbn; [tauto|]. intros [Y|[]]. injection Y as <- _. lia. }
      destruct (rs_cur s); [|apply Y]. unfold wait_check. cbn [rs_cur rs_runner]. case_if; [intros []|apply Y].
    - destruct (nth_error (rs_calls s) j) as [c|] eqn:EN; [|intros []]. assert (j < length (rs_calls s))%nat by (apply nth_error_Some; congruence).
      assert (Y : forall s' x, In (Returned i f) (snd (after_stop s' j x)) -> (i < length (rs_calls s) + 0)%nat).
      { intros s' x. unfold after_stop. destruct x; cbn; [tauto|]. intros [Y|[]]. injection Y as <- _. lia. }
      destruct (c_pc c); try (intros []; fail).
      + unfold wait_check. destruct (rs_cur s); [|apply Y]. case_if; [intros []|apply Y].
      + destruct (rs_cur s) as [r|]; [|intros [Z|[]]; injection Z as <- _; lia].
        destruct a; [|intros [Z|[]]; injection Z as <- _; lia]. unfold local_tick. cbn [pr_trigger snd app]. intros [Z|[Z|[]]]; [discriminate|injection Z as <- _; lia].
    - destruct (pr_timers (rs_runner s r)); [intros []|]. unfold local_tick. cbn [pr_trigger]. destruct (pr_trigger (rs_runner s r)); [intros []|intros [Z|[]]; discriminate]. }
  destruct (rstep s o) as [s1 e1]. cbn [fst snd] in *. intros H. apply in_app_or in H. destruct H as [H|H]; [apply IH in H; rewrite L; lia|auto].
Qed.

Lemma started_inv ops1 ops2 : one_at_a_time (ops1 ++ RCall true :: ops2) -> no_calls ops2 -> ticks_succeed ops2 ->
  let ops := ops1 ++ RCall true :: ops2 in let i := calls_made ops1 in
  started i (state_after ops) (observed ops) /\ (In (Returned i false) (observed ops) -> open_calls (rs_calls (state_after ops)) = 0%nat)
  /\ (exists c, nth_error (rs_calls (state_after ops)) i = Some c /\ c_run c = true) /\ calls_made ops = S i.
Proof.
  induction ops2 as [|ops2 o IH] using rev_ind_snoc; intros S N K; cbv zeta.
  - assert (L : calls_made (ops1 ++ [RCall true]) = Datatypes.S (calls_made ops1)) by (unfold calls_made; rewrite filter_len_app; cbn; lia).
    assert (NI : ~ In (Returned (calls_made ops1) false) (observed (ops1 ++ [RCall true]))).
    { unfold observed. rewrite run_snoc. pose proof (returned_range ops1 (calls_made ops1) false) as X.
      pose proof (proj2 (balance ops1)) as B. unfold observed, state_after in *.
      destruct (run rstep rinit ops1) as [s es]. cbn [fst snd] in *. intros Y.
      assert (Y' : In (Returned (calls_made ops1) false) es \/ In (Returned (calls_made ops1) false) (snd (rstep s (RCall true)))).
      { destruct (rstep s (RCall true)). cbn [fst snd] in *. apply in_app_or. assumption. }
      destruct Y' as [Y'|Y']; [specialize (X Y'); lia|]. cbn [rstep rs_cur rs_calls] in Y'.
      destruct (rs_cur s) as [r|]; [|destruct Y']. unfold wait_check in Y'. cbn [rs_cur rs_runner] in Y'.
      destruct (pr_running _) in Y'; destruct Y'. }
    split; [intros Y; tauto|]. split; [intros Y; tauto|]. split; [|assumption].
    rewrite state_snoc, <- (proj2 (balance ops1)). cbn [rstep rs_cur rs_calls]. generalize (state_after ops1). intros s.
    destruct (rs_cur s) as [r|]; unfold wait_check, after_stop; cbn [rs_cur rs_runner rs_calls rs_next]; [case_if|]; cbn [fst rs_calls]; rewrite set_pc_last; cbn [c_run]; eexists; (split; [apply nth_last|reflexivity]).
  - assert (E : ops1 ++ RCall true :: ops2 ++ [o] = (ops1 ++ RCall true :: ops2) ++ [o]) by (rewrite <- app_assoc; reflexivity).
    rewrite E in *. apply Forall_app in N. destruct N as [N1 N2]. inversion N2 as [|? ? N3 _]; subst.
    apply Forall_app in K. destruct K as [K1 K2]. inversion K2 as [|? ? K3 _]; subst.
    destruct (IH (seq_app _ _ S) N1 K1) as (A & B & D & L).
    destruct (started_step _ o (calls_made ops1) S N3 K3 L A B D) as (A' & B' & D'). repeat split; auto.
    unfold calls_made in *. rewrite filter_len_app. cbn. rewrite N3. cbn. lia.
Qed.

Lemma keeps_ticking ops1 ops2 : one_at_a_time (ops1 ++ RCall true :: ops2) -> no_calls ops2 -> ticks_succeed ops2 ->
  In (Returned (calls_made ops1) false) (observed (ops1 ++ RCall true :: ops2)) ->
  exists r, forall ok, snd (rstep (state_after (ops1 ++ RCall true :: ops2)) (RTimer r ok)) = [Ticked r].
Proof.
  intros S N K H. destruct (started_inv ops1 ops2 S N K) as (A & _). destruct (A H) as (r & E & T & M). exists r. intros ok.
  cbn [rstep]. rewrite M. unfold local_tick. cbn [pr_trigger]. rewrite T. reflexivity.
Qed.

(* a call of run() or stop() comes to its end *)
Definition healthy (s : rstate) : Prop := forall r, rs_cur s = Some r -> pr_running (rs_runner s r) = true -> pr_timers (rs_runner s r) = 1%nat.
Lemma healthy_step s o : inv s -> (is_call o = true -> open_calls (rs_calls s) = 0%nat) ->
  (match o with RGoOn _ init_ok _ => init_ok = true | _ => True end) -> healthy s -> healthy (fst (rstep s o)).
Proof.
  intros [I P] C K H. unfold healthy in *. destruct o as [b|i a t|r t]; cbn [rstep].
  - cbn [rs_calls rs_cur rs_runner rs_next]. destruct (rs_cur s) as [r|] eqn:E.
    + unfold wait_check. cbn [rs_cur rs_runner]. rewrite set_same. cbn [pr_running]. destruct (pr_running (rs_runner s r)) eqn:R.
      * cbn [fst rs_cur rs_runner]. intros r0 [= <-]. rewrite set_same. cbn. auto.
      * unfold after_stop. destruct b; cbn; discriminate.
    + unfold after_stop. destruct b; cbn; discriminate.
  - subst a. destruct (nth_error (rs_calls s) i) as [c|] eqn:EN; [|exact H].
    destruct (fin c) eqn:F; [unfold fin in F; destruct (c_pc c); try discriminate; exact H|].
    destruct (active_last s i c I EN F) as (cs & EC & -> & Z). rewrite EC, last_pc_snoc in P.
    destruct (c_pc c) eqn:PC; cbn [phase_ok] in P.
    + unfold wait_check. destruct (rs_cur s) as [r|] eqn:E; [|unfold after_stop; destruct (c_run c); cbn; discriminate].
      destruct (pr_running (rs_runner s r)) eqn:R; [exact H|unfold after_stop; destruct (c_run c); cbn; discriminate].
    + cbn. rewrite P. discriminate.
    + destruct P as (_ & _ & N). cbn. intros r0 [= <-]. rewrite N. discriminate.
    + destruct P as (r & E & N). rewrite E, N. unfold local_tick. cbn [pr_trigger prun_new pr_timers fst rs_cur rs_runner].
      intros r0 [= <-]. rewrite set_same. reflexivity.
    + unfold fin in F. rewrite PC in F. discriminate.
  - destruct (pr_timers (rs_runner s r)) as [|n] eqn:E; [exact H|].
    unfold local_tick. cbn [pr_trigger pr_running pr_timers]. assert (n = 0%nat) as -> by (pose proof (proj1 (i_one s I r)); lia).
    intros r0. destruct (pr_trigger (rs_runner s r)); cbn [fst rs_cur rs_runner]; intros Hr; (destruct (Nat.eq_dec r0 r) as [->|N]; [rewrite set_same; cbn; try discriminate; auto|rewrite set_other by assumption; auto]).
Qed.
Lemma healthy_run ops : one_at_a_time ops -> starts_succeed ops -> healthy (state_after ops).
Proof.
  induction ops as [|ops o IH] using rev_ind_snoc; intros S K; [intros r H; discriminate|].
  destruct (seq_snoc _ _ S) as [S1 S2]. apply Forall_app in K. destruct K as [K1 K2]. inversion K2; subst. rewrite state_snoc.
  apply healthy_step; auto; [apply seq_inv; assumption|]. intros E. apply returned_open. auto.
Qed.

(* progress of the last call: how many more steps it needs once its runner is not running any more *)
Definition left_pc (p : pc) : nat := match p with Waiting => 4 | Fetching => 3 | Assigning _ => 2 | Starting => 1 | Finished => 0 end.
Definition todo (s : rstate) : nat := left_pc (last_pc (rs_calls s)).
Definition halted (s : rstate) : Prop := match last_pc (rs_calls s) with Waiting => forall r, rs_cur s = Some r -> pr_running (rs_runner s r) = false | _ => True end.

Lemma go_on_step s a b : inv s -> halted s -> (0 < todo s)%nat ->
  let i := (length (rs_calls s) - 1)%nat in let x := rstep s (RGoOn i a b) in
  inv (fst x) /\ length (rs_calls (fst x)) = length (rs_calls s) /\ halted (fst x) /\ (todo (fst x) < todo s)%nat /\ (todo (fst x) = 0%nat -> exists f, In (Returned i f) (snd x)).
Proof.
  intros I H T i x. assert (I' : inv (fst x)) by (apply inv_step; [assumption|discriminate]).
  assert (L : length (rs_calls (fst x)) = length (rs_calls s)) by (pose proof (proj2 (step_calls s (RGoOn i a b))) as L; cbn [is_call] in L; fold x in L; lia).
  split; [assumption|]. split; [assumption|]. clear I' L. subst x. unfold todo, halted in *.
  destruct I as [I P]. destruct (rs_calls s) as [|c cs _] eqn:EC using rev_ind; [cbn in T; lia|].
  rewrite last_pc_snoc in *. assert (i = length cs) as Ei by (unfold i; rewrite app_length; cbn; lia). rewrite Ei. cbn [rstep]. rewrite EC, nth_last.
  assert (AS : forall s', rs_calls s' = cs ++ [c] -> rs_cur s' = None -> forall n, (3 < n)%nat -> let y := after_stop s' (length cs) (c_run c) in
    match last_pc (rs_calls (fst y)) with Waiting => forall r, rs_cur (fst y) = Some r -> pr_running (rs_runner (fst y) r) = false | _ => True end
    /\ (left_pc (last_pc (rs_calls (fst y))) < n)%nat
    /\ (left_pc (last_pc (rs_calls (fst y))) = 0%nat -> exists f, In (Returned (length cs) f) (snd y))).
  { intros s' E1 E2 n Hn. unfold after_stop. rewrite E1. destruct (c_run c); cbn [fst snd rs_calls]; rewrite set_pc_last, last_pc_snoc; cbn [c_pc left_pc].
    - split; [exact Logic.I|]. split; [lia|discriminate].
    - split; [exact Logic.I|]. split; [lia|]. intros _. exists false. cbn. auto. }
  destruct (c_pc c) eqn:PC.
  - unfold wait_check. destruct (rs_cur s) as [r|] eqn:E; [|apply AS; auto]. rewrite (H r eq_refl). apply AS; auto.
  - cbn [fst snd rs_calls]. rewrite set_pc_last, last_pc_snoc. cbn [c_pc left_pc]. repeat split; [lia|discriminate].
  - cbn [fst snd rs_calls]. rewrite set_pc_last, last_pc_snoc. cbn [c_pc left_pc]. repeat split; [lia|discriminate].
  - destruct (rs_cur s) as [r|]; [|cbn [fst snd rs_calls]; rewrite set_pc_last, last_pc_snoc; cbn [c_pc left_pc]; repeat split; [lia|intros _; exists true; left; reflexivity]].
    destruct a; [|cbn [fst snd rs_calls]; rewrite set_pc_last, last_pc_snoc; cbn [c_pc left_pc]; repeat split; [lia|intros _; exists true; left; reflexivity]].
    unfold local_tick. cbn [pr_trigger fst snd rs_calls app]. rewrite set_pc_last, last_pc_snoc. cbn [c_pc left_pc]. repeat split; [lia|]. intros _. eexists. right. left. reflexivity.
  - cbn [left_pc] in T. lia.
Qed.
Lemma go_on_all n : forall s a b, inv s -> halted s -> (todo s <= n)%nat -> (0 < todo s)%nat ->
  exists f, In (Returned (length (rs_calls s) - 1) f) (snd (run rstep s (repeat (RGoOn (length (rs_calls s) - 1) a b) n))).
Proof.
  induction n as [|n IH]; intros s a b I H L T; [lia|]. cbn [repeat]. rewrite run_cons. cbn [snd].
  destruct (go_on_step s a b I H T) as (I' & L' & H' & T' & D). cbv zeta in *.
  destruct (todo (fst (rstep s (RGoOn (length (rs_calls s) - 1) a b)))) as [|k] eqn:EK.
  - destruct (D eq_refl) as [f F]. exists f. apply in_or_app. auto.
  - destruct (IH (fst (rstep s (RGoOn (length (rs_calls s) - 1) a b))) a b I' H') as [f F]; [lia|lia|].
    exists f. apply in_or_app. right. rewrite L' in F. exact F.
Qed.

Lemma wait_keep s o : inv s -> is_call o = false -> last_pc (rs_calls (fst (rstep s o))) = Waiting ->
  last_pc (rs_calls s) = Waiting /\ rs_cur (fst (rstep s o)) = rs_cur s.
Proof.
  intros [I P] C. destruct o as [b|i a t|r t]; [discriminate| |]; cbn [rstep].
  - destruct (nth_error (rs_calls s) i) as [c|] eqn:EN; [|auto].
    destruct (fin c) eqn:F; [unfold fin in F; destruct (c_pc c); try discriminate; auto|].
    destruct (active_last s i c I EN F) as (cs & EC & -> & Z).
    assert (AS : forall s' x, rs_calls s' = rs_calls s -> last_pc (rs_calls (fst (after_stop s' (length cs) x))) <> Waiting).
    { intros s' x Es. unfold after_stop. rewrite Es. destruct x; cbn [fst rs_calls]; rewrite EC, set_pc_last, last_pc_snoc; discriminate. }
    destruct (c_pc c) eqn:PC.
    + unfold wait_check. destruct (rs_cur s) as [r|] eqn:E; [|intros X; exfalso; revert X; apply AS; reflexivity].
      destruct (pr_running (rs_runner s r)) eqn:R; [|intros X; exfalso; revert X; apply AS; reflexivity].
      cbn [fst rs_calls rs_cur]. intros _. rewrite EC, last_pc_snoc. auto.
    + cbn [fst rs_calls]. rewrite EC, set_pc_last, last_pc_snoc. discriminate.
    + cbn [fst rs_calls]. rewrite EC, set_pc_last, last_pc_snoc. discriminate.
    + destruct (rs_cur s) as [r|]; [|cbn [fst rs_calls]; rewrite EC, set_pc_last, last_pc_snoc; discriminate].
      destruct a; [unfold local_tick; cbn [pr_trigger]|]; cbn [fst rs_calls]; rewrite EC, set_pc_last, last_pc_snoc; discriminate.
    + unfold fin in F. rewrite PC in F. discriminate.
  - destruct (pr_timers (rs_runner s r)); [auto|]. unfold local_tick. cbn [pr_trigger]. destruct (pr_trigger (rs_runner s r)); cbn; auto.
Qed.

Lemma step_todo s o : inv s -> is_call o = false -> (0 < todo s)%nat ->
  (exists f, In (Returned (length (rs_calls s) - 1) f) (snd (rstep s o))) \/
  ((0 < todo (fst (rstep s o)))%nat /\ (halted s -> halted (fst (rstep s o)))).
Proof.
  intros I C T. destruct o as [b|i a t|r t]; [discriminate| |].
  - destruct (nth_error (rs_calls s) i) as [c|] eqn:EN; [|right; cbn [rstep]; rewrite EN; cbn [fst]; auto].
    destruct (fin c) eqn:F; [right; cbn [rstep]; rewrite EN; unfold fin in F; destruct (c_pc c); try discriminate; cbn [fst]; auto|].
    destruct (active_last s i c (proj1 I) EN F) as (cs & EC & -> & Z).
    assert (L : (length (rs_calls s) - 1)%nat = length cs) by (rewrite EC, app_length; cbn; lia).
    assert (HX : halted s -> (exists f, In (Returned (length (rs_calls s) - 1) f) (snd (rstep s (RGoOn (length cs) a t)))) \/
       ((0 < todo (fst (rstep s (RGoOn (length cs) a t))))%nat /\ (halted s -> halted (fst (rstep s (RGoOn (length cs) a t)))))).
    { intros H. destruct (go_on_step s a t I H T) as (_ & _ & H' & T' & D). cbv zeta in *. rewrite L in *.
      destruct (todo (fst (rstep s (RGoOn (length cs) a t)))) as [|k] eqn:EK; [left; auto|]. right. split; [lia|auto]. }
    destruct (c_pc c) eqn:PC; try (apply HX; unfold halted; rewrite EC, last_pc_snoc, PC; exact Logic.I).
    destruct (rs_cur s) as [r|] eqn:Er; [|apply HX; unfold halted; rewrite EC, last_pc_snoc, PC, Er; discriminate].
    destruct (pr_running (rs_runner s r)) eqn:Rr.
    + right. cbn [rstep]. rewrite EN, PC. unfold wait_check. rewrite Er, Rr. cbn [fst].
      unfold todo, halted. cbn [rs_calls rs_cur rs_runner]. rewrite EC, set_pc_last, !last_pc_snoc, PC. cbn [c_pc left_pc]. split; [lia|]. rewrite Er. auto.
    + apply HX. unfold halted. rewrite EC, last_pc_snoc, PC, Er. intros r0 [= <-]. assumption.
  - right. cbn [rstep]. destruct (pr_timers (rs_runner s r)) as [|n] eqn:E; [cbn [fst]; auto|].
    unfold local_tick. cbn [pr_trigger pr_running]. unfold todo, halted in *.
    destruct (pr_trigger (rs_runner s r)); cbn [fst rs_calls rs_cur rs_runner]; (split; [assumption|]).
    + destruct (last_pc (rs_calls s)); auto. intros H r0 Hr. destruct (Nat.eq_dec r0 r) as [->|N]; [rewrite set_same; reflexivity|rewrite set_other by assumption; auto].
    + destruct (last_pc (rs_calls s)); auto. intros H r0 Hr. destruct (Nat.eq_dec r0 r) as [->|N]; [rewrite set_same; cbn; auto|rewrite set_other by assumption; auto].
Qed.

(* while waiting: a running runner has its timer *)
Definition timed (s : rstate) : Prop := last_pc (rs_calls s) = Waiting -> forall r, rs_cur s = Some r -> pr_running (rs_runner s r) = true -> pr_timers (rs_runner s r) = 1%nat.
Lemma timed_step s o : inv s -> is_call o = false -> timed s -> timed (fst (rstep s o)).
Proof.
  intros [I P] C H. unfold timed in *. destruct o as [b|i a t|r t]; [discriminate| |]; cbn [rstep].
  - destruct (nth_error (rs_calls s) i) as [c|] eqn:EN; [|exact H].
    destruct (fin c) eqn:F; [unfold fin in F; destruct (c_pc c); try discriminate; exact H|].
    destruct (active_last s i c I EN F) as (cs & EC & -> & Z). rewrite EC, last_pc_snoc in H.
    assert (AS : forall s' x, rs_calls s' = rs_calls s -> last_pc (rs_calls (fst (after_stop s' (length cs) x))) <> Waiting).
    { intros s' x Es. unfold after_stop. rewrite Es. destruct x; cbn [fst rs_calls]; rewrite EC, set_pc_last, last_pc_snoc; discriminate. }
    destruct (c_pc c) eqn:PC.
    + unfold wait_check. destruct (rs_cur s) as [r|] eqn:E; [|intros X; exfalso; revert X; apply AS; reflexivity].
      destruct (pr_running (rs_runner s r)) eqn:R; [|intros X; exfalso; revert X; apply AS; reflexivity].
      cbn [fst rs_calls rs_cur rs_runner]. intros _. auto.
    + cbn [fst rs_calls]. rewrite EC, set_pc_last, last_pc_snoc. discriminate.
    + cbn [fst rs_calls]. rewrite EC, set_pc_last, last_pc_snoc. discriminate.
    + destruct (rs_cur s) as [r|]; [|cbn [fst rs_calls]; rewrite EC, set_pc_last, last_pc_snoc; discriminate].
      destruct a; [unfold local_tick; cbn [pr_trigger]|]; cbn [fst rs_calls]; rewrite EC, set_pc_last, last_pc_snoc; discriminate.
    + unfold fin in F. rewrite PC in F. discriminate.
  - destruct (pr_timers (rs_runner s r)) as [|n] eqn:E; [exact H|].
    unfold local_tick. cbn [pr_trigger pr_running pr_timers]. assert (n = 0%nat) as -> by (pose proof (proj1 (i_one s I r)); lia).
    destruct (pr_trigger (rs_runner s r)); cbn [fst rs_cur rs_runner rs_calls]; intros W r0 Hr; (destruct (Nat.eq_dec r0 r) as [->|N]; [rewrite set_same; cbn; try discriminate; auto|rewrite set_other by assumption; auto]).
Qed.

Lemma wait_run ops : forall s, inv s -> no_calls ops -> (0 < todo s)%nat ->
  (exists f, In (Returned (length (rs_calls s) - 1) f) (snd (run rstep s ops))) \/
  ((0 < todo (fst (run rstep s ops)))%nat /\ inv (fst (run rstep s ops)) /\ length (rs_calls (fst (run rstep s ops))) = length (rs_calls s)
   /\ (halted s -> halted (fst (run rstep s ops))) /\ (timed s -> timed (fst (run rstep s ops)))
   /\ (last_pc (rs_calls (fst (run rstep s ops))) = Waiting -> last_pc (rs_calls s) = Waiting /\ rs_cur (fst (run rstep s ops)) = rs_cur s)).
Proof.
  induction ops as [|o ops IH]; intros s I N T.
  - right. cbn. auto 10.
  - inversion N as [|? ? N1 N2]; subst. rewrite run_cons. cbn [fst snd].
    assert (I1 : inv (fst (rstep s o))) by (apply inv_step; [assumption|congruence]).
    pose proof (proj2 (step_calls s o)) as L. rewrite N1, Nat.add_0_r in L.
    destruct (step_todo s o I N1 T) as [[f F]|(T1 & H1)]; [left; exists f; apply in_or_app; auto|].
    destruct (IH _ I1 N2 T1) as [[f F]|(T2 & I2 & L2 & H2 & K2 & W2)].
    + left. exists f. rewrite L in F. apply in_or_app. auto.
    + right. split; [assumption|]. split; [assumption|]. split; [congruence|]. split; [auto|]. split; [intros K; apply K2, timed_step; assumption|].
      intros W. destruct (W2 W) as [Wa Wb]. rewrite Wb. apply (wait_keep s o I N1 Wa).
Qed.

(* the timer of the runner waited for *)
Lemma timer_halts s r t : inv s -> timed s -> (last_pc (rs_calls s) = Waiting -> rs_cur s = Some r) -> halted (fst (rstep s (RTimer r t))).
Proof.
  intros [I P] K W. unfold halted. cbn [rstep]. destruct (last_pc (rs_calls s)) eqn:E.
  - specialize (W eq_refl). destruct P as (r' & Er & Tr). assert (r' = r) as -> by congruence.
    destruct (pr_timers (rs_runner s r)) as [|n] eqn:M.
    + cbn [fst]. rewrite E. intros r0 Hr. assert (r0 = r) as -> by congruence. destruct (pr_running (rs_runner s r)) eqn:R; [|reflexivity].
      rewrite (K E r Er R) in M. discriminate.
    + unfold local_tick. cbn [pr_trigger]. rewrite Tr. cbn [fst rs_calls rs_cur rs_runner]. rewrite E. intros r0 Hr. assert (r0 = r) as -> by congruence.
      rewrite set_same. reflexivity.
  - destruct (pr_timers (rs_runner s r)); [cbn [fst]; rewrite E; exact Logic.I|]. unfold local_tick. cbn [pr_trigger]. destruct (pr_trigger (rs_runner s r)); cbn [fst rs_calls]; rewrite E; exact Logic.I.
  - destruct (pr_timers (rs_runner s r)); [cbn [fst]; rewrite E; exact Logic.I|]. unfold local_tick. cbn [pr_trigger]. destruct (pr_trigger (rs_runner s r)); cbn [fst rs_calls]; rewrite E; exact Logic.I.
  - destruct (pr_timers (rs_runner s r)); [cbn [fst]; rewrite E; exact Logic.I|]. unfold local_tick. cbn [pr_trigger]. destruct (pr_trigger (rs_runner s r)); cbn [fst rs_calls]; rewrite E; exact Logic.I.
  - destruct (pr_timers (rs_runner s r)); [cbn [fst]; rewrite E; exact Logic.I|]. unfold local_tick. cbn [pr_trigger]. destruct (pr_trigger (rs_runner s r)); cbn [fst rs_calls]; rewrite E; exact Logic.I.
Qed.

Lemma go_done n : forall s a b, inv s -> halted s -> (0 < todo s)%nat -> (4 <= n)%nat ->
  exists f, In (Returned (length (rs_calls s) - 1) f) (snd (run rstep s (repeat (RGoOn (length (rs_calls s) - 1) a b) n))).
Proof. intros s a b I H T L. apply go_on_all; auto. unfold todo, left_pc. destruct (last_pc (rs_calls s)); lia. Qed.

Lemma call_returns ops b : one_at_a_time (ops ++ [RCall b]) -> starts_succeed ops -> let i := calls_made ops in
  exists r, forall ops2 t n x y, no_calls ops2 -> In (RTimer r t) ops2 -> (4 <= n)%nat ->
  exists f, In (Returned i f) (observed ((ops ++ [RCall b]) ++ ops2 ++ repeat (RGoOn i x y) n)).
Proof.
  intros S K i. assert (E : forall l, observed ((ops ++ [RCall b]) ++ l) = observed (ops ++ [RCall b]) ++ snd (run rstep (state_after (ops ++ [RCall b])) l)).
  { intros l. unfold observed, state_after. rewrite run_app. destruct (run rstep rinit (ops ++ [RCall b])). reflexivity. }
  destruct (seq_snoc _ _ S) as [S1 S2]. pose proof (healthy_run ops S1 K) as HH. pose proof (seq_inv _ S) as I.
  assert (LI : (length (rs_calls (state_after (ops ++ [RCall b]))) - 1)%nat = i).
  { rewrite (proj2 (balance _)). unfold calls_made, i. rewrite filter_len_app. cbn. unfold calls_made. lia. }
  assert (D : (exists f, In (Returned i f) (observed (ops ++ [RCall b]))) \/ ((0 < todo (state_after (ops ++ [RCall b])))%nat /\ timed (state_after (ops ++ [RCall b])))).
  { unfold observed. rewrite state_snoc, run_snoc. unfold i. rewrite <- (proj2 (balance ops)). clear i LI E S S1 S2 I.
    unfold state_after in *. destruct (run rstep rinit ops) as [s es]. cbn [fst snd] in *.
    assert (X : (exists f, In (Returned (length (rs_calls s)) f) (snd (rstep s (RCall b)))) \/ ((0 < todo (fst (rstep s (RCall b))))%nat /\ timed (fst (rstep s (RCall b))))).
    { cbn [rstep rs_cur rs_calls rs_runner rs_next].
      assert (AS : forall s', rs_calls s' = rs_calls s ++ [mkCall b Waiting] -> let z := after_stop s' (length (rs_calls s)) b in
         (exists f, In (Returned (length (rs_calls s)) f) (snd z)) \/ ((0 < todo (fst z))%nat /\ timed (fst z))).
      { intros s' Es. unfold after_stop. destruct b; [right|left; exists false; cbn; auto]. unfold todo, timed. cbn [fst rs_calls]. rewrite Es, set_pc_last, last_pc_snoc. cbn. split; [lia|discriminate]. }
      destruct (rs_cur s) as [r|] eqn:Er; [|apply AS; reflexivity]. unfold wait_check. cbn [rs_cur rs_runner rs_calls rs_next]. rewrite set_same. cbn [pr_running].
      destruct (pr_running (rs_runner s r)) eqn:Rr; [|apply AS; reflexivity]. right. unfold todo, timed. cbn [fst rs_calls rs_cur rs_runner].
      rewrite set_pc_last, last_pc_snoc. cbn [c_pc left_pc]. split; [lia|]. intros _ r0 [= <-]. rewrite set_same. cbn. intros _. apply HH; assumption. }
    destruct X as [[f F]|X]; [left|right; exact X]. exists f. destruct (rstep s (RCall b)) as [s1 e1]. cbn [fst snd] in *. apply in_or_app. auto. }
  destruct D as [[f F]|[T TM]].
  - exists 0%nat. intros ops2 t n x y _ _ _. exists f. rewrite E. apply in_or_app. auto.
  - set (s := state_after (ops ++ [RCall b])) in *.
    exists (match rs_cur s with Some r => r | None => 0%nat end). intros ops2 t n x y N HIn L. rewrite E. fold s.
    apply in_split in HIn. destruct HIn as (l1 & l2 & ->). apply Forall_app in N. destruct N as [N1 N2]. inversion N2 as [|? ? N3 N4]; subst.
    assert (G : exists f, In (Returned i f) (snd (run rstep s ((l1 ++ RTimer (match rs_cur s with Some r => r | None => 0%nat end) t :: l2) ++ repeat (RGoOn i x y) n)))).
    { rewrite <- app_assoc. rewrite run_app. cbn [app].
      destruct (wait_run l1 s I N1 T) as [[f F]|(T1 & I1 & L1 & _ & K1 & W1)].
      { exists f. rewrite LI in F. destruct (run rstep s l1). cbn [fst snd] in *. apply in_or_app. auto. }
      destruct (run rstep s l1) as [s1 e1] eqn:R1. cbn [fst snd] in *. rewrite run_cons. cbn [fst snd].
      set (r := match rs_cur s with Some r => r | None => 0%nat end) in *.
      assert (H2 : halted (fst (rstep s1 (RTimer r t)))).
      { apply timer_halts; auto. intros W. destruct (W1 W) as [_ Ec]. rewrite Ec. destruct I1 as [_ P1]. rewrite W in P1. destruct P1 as (r' & Er' & _). unfold r. rewrite <- Ec, Er'. reflexivity. }
      assert (I2 : inv (fst (rstep s1 (RTimer r t)))) by (apply inv_step; [assumption|discriminate]).
      pose proof (proj2 (step_calls s1 (RTimer r t))) as L2. cbn [is_call] in L2. rewrite Nat.add_0_r in L2.
      destruct (step_todo s1 (RTimer r t) I1 eq_refl T1) as [[f F]|(T2 & _)].
      { exists f. rewrite L1, LI in F. apply in_or_app. right. apply in_or_app. auto. }
      rewrite run_app. destruct (wait_run l2 _ I2 N4 T2) as [[f F]|(T3 & I3 & L3 & H3 & _)].
      { exists f. rewrite L2, L1, LI in F. apply in_or_app. right. apply in_or_app. right.
        destruct (run rstep (fst (rstep s1 (RTimer r t))) l2). cbn [fst snd] in *. apply in_or_app. auto. }
      destruct (go_done n _ x y I3 (H3 H2) T3 L) as [f F]. rewrite L3, L2, L1, LI in F. exists f.
      apply in_or_app. right. apply in_or_app. right. destruct (run rstep (fst (rstep s1 (RTimer r t))) l2) as [s3 e3]. cbn [fst snd] in *.
      destruct (run rstep s3 (repeat (RGoOn i x y) n)). cbn [fst snd] in *. apply in_or_app. auto. }
    destruct G as [f F]. exists f. apply in_or_app. auto.
Qed.

(* refutations *)
Definition stuck (s : rstate) : Prop := exists r, rs_cur s = Some r /\ pr_running (rs_runner s r) = true /\ pr_timers (rs_runner s r) = 0%nat
  /\ forall i c, nth_error (rs_calls s) i = Some c -> c_pc c = Waiting \/ c_pc c = Finished.
Lemma nth_snoc_cases {A} (l : list A) x i y : nth_error (l ++ [x]) i = Some y -> nth_error l i = Some y \/ y = x.
Proof.
  intros H. destruct (Nat.lt_ge_cases i (length l)) as [L|L]; [rewrite nth_error_app1 in H by assumption; auto|].
  rewrite nth_error_app2 in H by assumption. destruct (i - length l)%nat as [|k]; [injection H as ->; auto|destruct k; discriminate].
Qed.
Lemma set_pc_nth cs : forall i p j c, nth_error (set_pc cs i p) j = Some c -> c_pc c = p \/ nth_error cs j = Some c.
Proof.
  induction cs as [|c0 cs IH]; intros [|i] p [|j] c; cbn; try discriminate; auto.
  - intros [= <-]. auto.
  - apply IH.
Qed.
Lemma stuck_step s o : stuck s -> stuck (fst (rstep s o)) /\ forall i f, ~ In (Returned i f) (snd (rstep s o)).
Proof.
  intros (r & E & R & M & H). destruct o as [b|i a t|r0 t]; cbn [rstep].
  - cbn [rs_cur rs_calls rs_runner rs_next]. rewrite E. unfold wait_check. cbn [rs_cur rs_runner rs_calls rs_next]. rewrite set_same. cbn [pr_running]. rewrite R.
    split; [|intros ? ? []]. exists r. cbn [fst rs_cur rs_runner rs_calls]. rewrite set_same. cbn. split; [reflexivity|]. split; [reflexivity|]. split; [assumption|].
    intros i c. rewrite set_pc_last. cbn. intros X. apply nth_snoc_cases in X. destruct X as [X|X]; [eauto|subst; auto].
  - destruct (nth_error (rs_calls s) i) as [c|] eqn:EN; [|split; [exists r; auto|intros ? ? []]].
    destruct (H i c EN) as [P|P]; rewrite P; [|split; [exists r; auto|intros ? ? []]].
    unfold wait_check. rewrite E, R. split; [|intros ? ? []]. exists r. cbn [fst rs_cur rs_runner rs_calls]. repeat split; auto.
    intros j c' X. apply set_pc_nth in X. destruct X as [X|X]; [auto|eauto].
  - destruct (pr_timers (rs_runner s r0)) as [|n] eqn:M0; [split; [exists r; auto|intros ? ? []]|].
    assert (r <> r0) by congruence.
    unfold local_tick. cbn [pr_trigger]. destruct (pr_trigger (rs_runner s r0)); cbn [fst snd]; (split; [exists r; cbn [rs_cur rs_runner rs_calls]; rewrite set_other by assumption; auto|]).
    + intros ? ? [].
    + intros ? ? [X|[]]. discriminate.
Qed.
Lemma stuck_run ops : forall s, stuck s -> forall i f, ~ In (Returned i f) (snd (run rstep s ops)).
Proof.
  induction ops as [|o ops IH]; intros s H i f; [intros []|]. rewrite run_cons. cbn [snd]. intros X. apply in_app_or in X.
  destruct (stuck_step s o H) as [A B]. destruct X as [X|X]; [eapply B; eauto|eapply IH; eauto].
Qed.

(* a runner nobody refers to any more *)
Definition orphan (r : nat) (s : rstate) : Prop := rs_cur s <> Some r /\ (r < rs_next s)%nat /\ pr_trigger (rs_runner s r) = false /\ (0 < pr_timers (rs_runner s r))%nat
  /\ forall i c, nth_error (rs_calls s) i = Some c -> c_pc c <> Assigning r.
Lemma orphan_step r s o : orphan r s -> o <> RTimer r false -> orphan r (fst (rstep s o)).
Proof.
  intros (E & L & T & M & H) N. unfold orphan. destruct o as [b|i a t|r0 t]; cbn [rstep].
  - cbn [rs_cur rs_calls rs_runner rs_next].
    assert (X : forall p j c, p = Fetching \/ p = Finished \/ p = Waiting -> nth_error (set_pc (rs_calls s ++ [mkCall b Waiting]) (length (rs_calls s)) p) j = Some c -> c_pc c <> Assigning r).
    { intros p j c Hp. rewrite set_pc_last. intros Y. apply nth_snoc_cases in Y. destruct Y as [Y|Y]; [eauto|subst; cbn; destruct Hp as [->|[->| ->]]; discriminate]. }
    destruct (rs_cur s) as [r1|] eqn:E1.
    + assert (r <> r1) by congruence. unfold wait_check. cbn [rs_cur rs_runner rs_calls rs_next]. rewrite set_same. cbn [pr_running].
      destruct (pr_running (rs_runner s r1)); [|unfold after_stop; destruct b]; cbn [fst rs_cur rs_runner rs_next rs_calls]; rewrite set_other by assumption; (split; [congruence|]); (split; [assumption|]); (split; [assumption|]); (split; [assumption|]); intros j c; apply X; auto.
    + unfold after_stop. destruct b; cbn [fst rs_cur rs_runner rs_next rs_calls]; (split; [congruence|]); (split; [assumption|]); (split; [assumption|]); (split; [assumption|]); intros j c; apply X; auto.
  - destruct (nth_error (rs_calls s) i) as [c|] eqn:EN; [|cbn [fst]; auto].
    assert (X : forall p j c', p <> Assigning r -> nth_error (set_pc (rs_calls s) i p) j = Some c' -> c_pc c' <> Assigning r).
    { intros p j c' Hp Y. apply set_pc_nth in Y. destruct Y as [Y|Y]; [congruence|eauto]. }
    pose proof (H i c EN) as Hi.
    destruct (c_pc c) eqn:P.
    + unfold wait_check. destruct (rs_cur s) as [r1|] eqn:E1; [destruct (pr_running (rs_runner s r1))|]; try (unfold after_stop; destruct (c_run c)); cbn [fst rs_cur rs_runner rs_next rs_calls]; (split; [congruence|]); (split; [assumption|]); (split; [assumption|]); (split; [assumption|]); intros j c'; apply X; discriminate.
    + cbn [fst rs_cur rs_runner rs_next rs_calls]. rewrite set_other by lia. split; [assumption|]. split; [lia|]. split; [assumption|]. split; [assumption|].
      intros j c'. apply X. intros Y. injection Y as Y. lia.
    + cbn [fst rs_cur rs_runner rs_next rs_calls]. split; [congruence|]. split; [assumption|]. split; [assumption|]. split; [assumption|].
      intros j c'. apply X. discriminate.
    + destruct (rs_cur s) as [r1|] eqn:E1; [|cbn [fst rs_cur rs_runner rs_next rs_calls]; (split; [congruence|]); (split; [assumption|]); (split; [assumption|]); (split; [assumption|]); intros j c'; apply X; discriminate].
      assert (r <> r1) by congruence. destruct a; [unfold local_tick; cbn [pr_trigger]|]; cbn [fst rs_cur rs_runner rs_next rs_calls]; rewrite set_other by assumption; (split; [congruence|]); (split; [assumption|]); (split; [assumption|]); (split; [assumption|]); intros j c'; apply X; discriminate.
    + cbn [fst]. auto.
  - destruct (pr_timers (rs_runner s r0)) as [|n] eqn:M0; [cbn [fst]; auto|].
    unfold local_tick. cbn [pr_trigger]. destruct (Nat.eq_dec r r0) as [<-|Nr].
    + rewrite T. cbn [fst rs_cur rs_runner rs_next rs_calls]. rewrite set_same. cbn. destruct t; [|congruence]. cbn. repeat split; auto; try lia.
    + destruct (pr_trigger (rs_runner s r0)); cbn [fst rs_cur rs_runner rs_next rs_calls]; rewrite set_other by assumption; auto.
Qed.
Lemma orphan_ticks r ops : forall s, orphan r s -> ~ In (RTimer r false) ops -> snd (rstep (fst (run rstep s ops)) (RTimer r true)) = [Ticked r].
Proof.
  induction ops as [|o ops IH]; intros s H N.
  - cbn [run fold_left fst]. destruct H as (_ & _ & T & M & _). cbn [rstep]. destruct (pr_timers (rs_runner s r)); [lia|]. unfold local_tick. cbn [pr_trigger]. rewrite T. reflexivity.
  - rewrite run_cons. cbn [fst]. apply IH; [apply orphan_step; [assumption|]|]; intros X; apply N; [left|right]; auto.
Qed.
