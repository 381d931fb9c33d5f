From Verif.Lib Require Import Base.
From Verif.Model Require Import Midi Period Local.
From Verif.Spec Require Import Local.

(* ---- C39 ---- *)

Lemma limit_nearest mx v : 0 <= mx -> limit mx v = nearest 0 mx v.
Proof. intros H. unfold limit, nearest. cbn zeta. destruct (v <? 0) eqn:E1; case_if; lia. Qed.

Lemma push_sent c s t : 0 <= pc_max c ->
  sent (snd (pstep c s (PPush t))) = match p_value s with None => [] | Some v => [(t, nearest 0 (pc_max c) (v + pc_off c))] end.
Proof.
  intros H. cbn [pstep]. unfold p_push. destruct (p_value s) as [v|]; [|reflexivity]. cbn. rewrite limit_nearest by lia. reflexivity.
Qed.

Lemma step_range c s o : 0 <= pc_max c -> forall t v, In (t, v) (sent (snd (pstep c s o))) -> 0 <= v <= pc_max c.
Proof.
  intros H t v Hin.
  assert (P : forall s t', In (t, v) (sent (snd (p_push c s t'))) -> 0 <= v <= pc_max c).
  { intros s' t' Hp. pose proof (push_sent c s' t' H) as E. cbn [pstep] in E. rewrite E in Hp.
    destruct (p_value s'); [|destruct Hp]. destruct Hp as [Hp|[]]. injection Hp as <- <-. unfold nearest. lia. }
  destruct o; cbn [pstep] in Hin; try (now destruct Hin); eauto.
  unfold p_update in Hin. destruct (p_pushed s); [|destruct Hin]. destruct (p_period s) as [p|]; [|destruct Hin].
  destruct (p_exceeded p t0) as [r p']. destruct r; [|destruct Hin]. eauto.
Qed.

Lemma after_snoc c ops o : after c (ops ++ [o]) = fst (pstep c (after c ops) o).
Proof. unfold after. rewrite run_snoc. reflexivity. Qed.

Lemma sent_app a b : sent (a ++ b) = sent a ++ sent b.
Proof. unfold sent. apply flat_map_app. Qed.

Lemma history_range c ops : 0 <= pc_max c -> forall t v, In (t, v) (sent (snd (run (pstep c) (new_pstate c) ops))) -> 0 <= v <= pc_max c.
Proof.
  intros H. induction ops as [|ops o IH] using rev_ind_snoc; intros t v Hin.
  - destruct Hin.
  - rewrite run_snoc in Hin. cbn [snd] in Hin. rewrite sent_app in Hin. apply in_app_or in Hin. destruct Hin as [Hin|Hin]; eauto.
    eapply step_range; eauto.
Qed.

Lemma value_step c s o : 0 <= pc_max c ->
  p_value (fst (pstep c s o)) =
  match o with
  | PReport v => v
  | _ => if pc_fb c then match sent (snd (pstep c s o)) with [] => p_value s | (_, v) :: _ => Some v end else p_value s
  end.
Proof.
  intros H.
  assert (P : forall s t, p_value (fst (p_push c s t)) =
    if pc_fb c then match sent (snd (p_push c s t)) with [] => p_value s | (_, v) :: _ => Some v end else p_value s).
  { intros s' t. unfold p_push. destruct (p_value s') as [v|] eqn:E; cbn.
    - destruct (pc_fb c); reflexivity.
    - rewrite E. destruct (pc_fb c); reflexivity. }
  destruct o; cbn [pstep]; auto.
  - cbn. destruct (pc_fb c); reflexivity.
  - unfold p_update. destruct (p_pushed s); [|cbn; destruct (pc_fb c); reflexivity].
    destruct (p_period s) as [p|]; [|cbn; destruct (pc_fb c); reflexivity].
    destruct (p_exceeded p t) as [r p']. destruct r; [|cbn; destruct (pc_fb c); reflexivity].
    rewrite P. reflexivity.
Qed.

(* the period, as long as it exists, keeps its interval *)
Definition has_interval (i : Z) (s : pstate) : Prop := exists p, p_period s = Some p /\ interval p = i.

Lemma step_interval c i s o : has_interval i s -> has_interval i (fst (pstep c s o)).
Proof.
  intros (p & Hp & Hi).
  assert (P : forall s t, has_interval i s -> has_interval i (fst (p_push c s t))).
  { intros s' t (p0 & H0 & H1). unfold p_push. destruct (p_value s'); cbn; [|exists p0; auto].
    exists (p_reset p0 t). cbn. rewrite H0. auto. }
  destruct o; cbn [pstep]; try (exists p; cbn; auto; fail).
  - apply P. exists p; auto.
  - unfold p_update. destruct (p_pushed s); [|exists p; auto]. rewrite Hp. unfold p_exceeded.
    case_if; [apply P; eexists; cbn; split; [reflexivity|exact Hi]|exists p; auto].
Qed.

Lemma after_interval c i ops : pc_rep c = Some i -> i <> 0 -> has_interval i (after c ops).
Proof.
  intros Hr Hi. induction ops as [|ops o IH] using rev_ind_snoc.
  - unfold after. cbn. unfold new_pstate, has_interval. rewrite Hr. cbn.
    destruct (i =? 0) eqn:E; [lia|]. exists (new_period i). auto.
  - rewrite after_snoc. apply step_interval, IH.
Qed.

(* the last send is not newer than the counter, and the switch is still held *)
Definition Inv (c : pconf) (ops : list pop) : Prop :=
  p_pushed (after c ops) = true ->
  exists quiet t0, last_send c ops quiet t0 /\ (forall p, p_period (after c ops) = Some p -> t0 <= last_reset p).

Lemma sends_app c ops o : sends c ops o = sent (snd (pstep c (after c ops) o)).
Proof. reflexivity. Qed.

Lemma last_send_new c ops o t0 v : sends c ops o = [(t0, v)] -> last_send c (ops ++ [o]) [] t0.
Proof.
  intros H. exists ops, o, v. split; [reflexivity|]. split; [exact H|]. intros a q b E. destruct a; discriminate.
Qed.

Lemma snoc_split {A} (l : list A) x a q b : l ++ [x] = a ++ q :: b ->
  (b = [] /\ a = l /\ q = x) \/ (exists b', b = b' ++ [x] /\ l = a ++ q :: b').
Proof.
  intros E. destruct (rev b) as [|y rb] eqn:Eb.
  - assert (b = []) by (rewrite <- (rev_involutive b), Eb; reflexivity). subst b. left.
    apply app_inj_tail in E. destruct E; subst; auto.
  - right. assert (Eb' : b = rev rb ++ [y]) by (rewrite <- (rev_involutive b), Eb; reflexivity). subst b.
    change (a ++ q :: rev rb ++ [y]) with (a ++ (q :: rev rb) ++ [y]) in E. rewrite app_assoc in E. apply app_inj_tail in E.
    destruct E as [E1 E2]. subst. exists (rev rb). auto.
Qed.

Lemma last_send_more c ops quiet t0 o : last_send c ops quiet t0 -> o <> PRelease -> sends c ops o = [] ->
  last_send c (ops ++ [o]) (quiet ++ [o]) t0.
Proof.
  intros (ops1 & o1 & v & E & Hs & Hq) Ho Hn. exists ops1, o1, v. split; [rewrite E, <- app_assoc; reflexivity|].
  split; [exact Hs|]. intros a q b Hab. apply snoc_split in Hab. destruct Hab as [(-> & -> & ->)|(b' & -> & Hl)].
  - split; [exact Ho|]. rewrite <- E. exact Hn.
  - apply (Hq _ _ _ Hl).
Qed.

Lemma push_cases c s t : (p_value s = None /\ p_push c s t = (s, [])) \/
  (exists v v', p_push c s t = (mkPstate (Some v') true (option_map (fun p => p_reset p t) (p_period s)) (p_shown s), [PSend t v])).
Proof.
  unfold p_push. destruct (p_value s) as [x|]; [right|left; auto]. destruct (pc_fb c); eauto.
Qed.

Lemma inv_holds c ops i : pc_rep c = Some i -> 0 < i -> Inv c ops.
Proof.
  intros Hr Hi. induction ops as [|ops o IH] using rev_ind_snoc; unfold Inv.
  - cbn. discriminate.
  - rewrite after_snoc. unfold Inv in IH.
    assert (HI := after_interval c i ops Hr ltac:(lia)).
    assert (P : forall t s, o = PPush t \/ (o = PUpdate t /\ pstep c (after c ops) o = p_push c s t) ->
              sends c ops o = sent (snd (p_push c s t)) -> pstep c (after c ops) o = p_push c s t ->
              (p_value s = None -> p_pushed s = p_pushed (after c ops) /\ forall p p0, p_period s = Some p -> p_period (after c ops) = Some p0 -> last_reset p0 <= last_reset p) ->
              p_pushed (fst (pstep c (after c ops) o)) = true ->
              exists quiet t0, last_send c (ops ++ [o]) quiet t0 /\
                forall p, p_period (fst (pstep c (after c ops) o)) = Some p -> t0 <= last_reset p).
    { intros t s Ho Hs Hp Hv Hpush. rewrite Hp in *. destruct (push_cases c s t) as [[Hn E]|(v & v' & E)].
      - rewrite E in *. cbn [fst snd] in *. destruct (Hv Hn) as [E1 E2]. rewrite E1 in Hpush. destruct (IH Hpush) as (quiet & t0 & HL & Hle).
        exists (quiet ++ [o]), t0. split.
        + apply last_send_more; auto. destruct Ho as [-> | [-> _]]; discriminate.
        + intros p Hpp. destruct HI as (p0 & Hp0 & _). specialize (Hle p0 Hp0). specialize (E2 p p0 Hpp Hp0). lia.
      - rewrite E in *. cbn in *. exists [], t. split.
        + eapply last_send_new. exact Hs.
        + intros p Hpp. destruct (p_period s); cbn in Hpp; [|discriminate]. injection Hpp as <-. cbn. lia. }
    destruct o as [t| |t|v].
    + apply (P t (after c ops)); auto; intros; split; auto; intros; try congruence.
      assert (p0 = p) by congruence. subst. lia.
    + cbn. discriminate.
    + cbn [pstep] in *. unfold p_update in *. destruct (p_pushed (after c ops)) eqn:Epu.
      2:{ cbn. rewrite Epu. discriminate. }
      destruct HI as (p & Hp & Hint). rewrite Hp in *. unfold p_exceeded in *. case_if.
      * set (s' := mkPstate (p_value (after c ops)) true (Some (mkPeriod (interval p) t)) (p_shown (after c ops))) in *.
        assert (Est : p_update c (after c ops) t = p_push c s' t).
        { unfold p_update. rewrite Epu, Hp. unfold p_exceeded. rewrite Heqb. reflexivity. }
        apply (P t s'); auto.
        -- unfold sends. cbn [pstep]. rewrite Est. reflexivity.
        -- intros _. split; [reflexivity|]. intros q q0 Hq Hq0. subst s'. cbn in Hq. injection Hq as <-. cbn.
           assert (q0 = p) by congruence. subst. lia.
      * intros _. destruct (IH eq_refl) as (quiet & t0 & HL & Hle). exists (quiet ++ [PUpdate t]), t0. split.
        -- apply last_send_more; auto; [discriminate|]. unfold sends. cbn [pstep]. unfold p_update. rewrite Epu, Hp.
           unfold p_exceeded. rewrite Heqb. reflexivity.
        -- intros q. cbn. intros E. injection E as <-. auto.
    + cbn. intros Hpu. destruct (IH Hpu) as (quiet & t0 & HL & Hle). exists (quiet ++ [PReport v]), t0. split; auto.
      apply last_send_more; auto; discriminate.
Qed.

Lemma update_sends c s t : 0 <= pc_max c -> sent (snd (pstep c s (PUpdate t))) =
  match p_pushed s, p_period s, p_value s with
  | true, Some p, Some v => if last_reset p + interval p <? t then [(t, nearest 0 (pc_max c) (v + pc_off c))] else []
  | _, _, _ => []
  end.
Proof.
  intros H. cbn [pstep]. unfold p_update, p_exceeded. destruct (p_pushed s); [|reflexivity].
  destruct (p_period s) as [p|]; [|reflexivity]. case_if.
  - unfold p_push. cbn. destruct (p_value s); [|reflexivity]. cbn. rewrite limit_nearest by lia. reflexivity.
  - cbn. destruct (p_value s); reflexivity.
Qed.

Lemma repeat_spaced c ops t i : 0 <= pc_max c -> pc_rep c = Some i -> 0 < i -> sends c ops (PUpdate t) <> [] ->
  exists quiet t0, last_send c ops quiet t0 /\ t0 + i < t.
Proof.
  intros Hm Hr Hi Hs. rewrite sends_app, update_sends in Hs by lia.
  destruct (p_pushed (after c ops)) eqn:E1; [|congruence]. destruct (p_period (after c ops)) as [p|] eqn:E2; [|congruence].
  destruct (p_value (after c ops)) as [v|] eqn:E3; [|congruence]. destruct (last_reset p + interval p <? t) eqn:E4; [|congruence].
  destruct (inv_holds c ops i Hr Hi E1) as (quiet & t0 & HL & Hle). exists quiet, t0. split; auto.
  specialize (Hle p E2). destruct (after_interval c i ops Hr ltac:(lia)) as (p0 & Hp0 & Hi0).
  assert (p0 = p) by congruence. subst. lia.
Qed.

(* a step that sends at time t leaves the switch held and the counter at t *)
Lemma send_marks c s o t v : sent (snd (pstep c s o)) = [(t, v)] ->
  p_pushed (fst (pstep c s o)) = true /\ p_value (fst (pstep c s o)) <> None /\
  forall p, p_period (fst (pstep c s o)) = Some p -> last_reset p = t.
Proof.
  assert (P : forall s t', sent (snd (p_push c s t')) = [(t, v)] -> p_pushed (fst (p_push c s t')) = true /\
    p_value (fst (p_push c s t')) <> None /\
    forall p, p_period (fst (p_push c s t')) = Some p -> last_reset p = t).
  { intros s' t' Hs. destruct (push_cases c s' t') as [[Hn E]|(x & x' & E)]; rewrite E in *; cbn in *; [discriminate|].
    injection Hs as -> ->. split; auto. split; [congruence|]. intros p Hp. destruct (p_period s'); cbn in Hp; [|discriminate]. injection Hp as <-. reflexivity. }
  destruct o; cbn [pstep]; auto; cbn; try discriminate.
  unfold p_update. destruct (p_pushed s); [|discriminate]. destruct (p_period s) as [p|]; [|discriminate].
  destruct (p_exceeded p t0) as [[|] p']; [apply P|discriminate].
Qed.

Lemma repeats c ops quiet t0 t i : 0 <= pc_max c -> pc_rep c = Some i -> 0 < i -> last_send c ops quiet t0 ->
  (forall v, In (PReport v) quiet -> v <> None) -> t0 + i < t ->
  exists v, p_value (after c ops) = Some v /\ sends c ops (PUpdate t) = [(t, nearest 0 (pc_max c) (v + pc_off c))].
Proof.
  intros Hm Hr Hi (ops1 & o & v & -> & Hs & Hq) Hrep Ht.
  assert (G : p_pushed (after c (ops1 ++ o :: quiet)) = true /\ p_value (after c (ops1 ++ o :: quiet)) <> None /\
              forall p, p_period (after c (ops1 ++ o :: quiet)) = Some p -> last_reset p = t0).
  { revert Hq Hrep. induction quiet as [|quiet q IH] using rev_ind_snoc; intros Hq Hrep.
    - rewrite after_snoc. eapply send_marks. exact Hs.
    - rewrite app_comm_cons, app_assoc, after_snoc.
      destruct IH as (I1 & I2 & I3).
      { intros a x b Hab. destruct (Hq a x (b ++ [q])); [rewrite Hab, <- app_assoc; reflexivity|]. auto. }
      { intros w Hw. apply Hrep. apply in_or_app. auto. }
      destruct (Hq quiet q [] eq_refl) as [Hnr Hns].
      set (s := after c (ops1 ++ o :: quiet)) in *. rewrite sends_app in Hns. fold s in Hns.
      destruct q as [t'| |t'|w]; [| congruence | |].
      + rewrite push_sent in Hns by lia. destruct (p_value s); congruence.
      + destruct (after_interval c i (ops1 ++ o :: quiet) Hr ltac:(lia)) as (p & Hp & Hint). fold s in Hp.
        rewrite update_sends in Hns by lia. rewrite I1, Hp in Hns. destruct (p_value s) as [w|] eqn:Ev; [|congruence].
        cbn [pstep]. unfold p_update. rewrite I1, Hp. unfold p_exceeded. destruct (last_reset p + interval p <? t'); [discriminate|].
        cbn. rewrite Ev. split; auto. split; [congruence|]. intros q E. injection E as <-. auto.
      + cbn. split; auto. split; auto. apply Hrep. apply in_or_app. right. left. reflexivity. }
  destruct G as (G1 & G2 & G3).
  destruct (p_value (after c (ops1 ++ o :: quiet))) as [w|] eqn:Ev; [|congruence].
  exists w. split; auto. rewrite sends_app, update_sends by lia.
  destruct (after_interval c i (ops1 ++ o :: quiet) Hr ltac:(lia)) as (p & Hp & Hint).
  rewrite G1, Hp, Ev. rewrite (G3 p Hp), Hint. destruct (t0 + i <? t) eqn:E; [reflexivity|lia].
Qed.

Lemma released_quiet c ops2 : forall s, p_pushed s = false -> (forall t, ~ In (PPush t) ops2) ->
  sent (snd (run (pstep c) s ops2)) = [].
Proof.
  induction ops2 as [|o ops2 IH]; intros s Hp Hn; [reflexivity|].
  rewrite run_cons. cbn [snd]. rewrite sent_app, IH.
  - rewrite app_nil_r. destruct o; cbn [pstep]; try reflexivity.
    + exfalso. apply (Hn t). left. reflexivity.
    + unfold p_update. rewrite Hp. reflexivity.
  - destruct o; cbn [pstep]; auto.
    + exfalso. apply (Hn t). left. reflexivity.
    + unfold p_update. rewrite Hp. exact Hp.
  - intros t Hin. apply (Hn t). right. exact Hin.
Qed.

Lemma stops_on_release c ops ops2 : (forall t, ~ In (PPush t) ops2) ->
  sent (snd (run (pstep c) (after c (ops ++ [PRelease])) ops2)) = [].
Proof. intros H. apply released_quiet; auto. rewrite after_snoc. reflexivity. Qed.

Lemma no_repeat c ops t : pc_rep c = None \/ pc_rep c = Some 0 -> sends c ops (PUpdate t) = [].
Proof.
  intros Hr.
  assert (G : p_period (after c ops) = None).
  { induction ops as [|ops o IH] using rev_ind_snoc.
    - unfold after. cbn. unfold new_pstate. destruct Hr as [-> | ->]; reflexivity.
    - rewrite after_snoc. destruct o as [t'| |t'|v]; cbn [pstep]; auto.
      + unfold p_push. destruct (p_value (after c ops)); cbn; auto. rewrite IH. reflexivity.
      + unfold p_update. rewrite IH. destruct (p_pushed (after c ops)); auto. }
  unfold sends. cbn [pstep]. unfold p_update. rewrite G. destruct (p_pushed (after c ops)); reflexivity.
Qed.

Lemma py_round_close a b : 0 < b -> 2 * Z.abs (py_round a b * b - a) <= b.
Proof.
  intros Hb. unfold py_round. cbn zeta. pose proof (Z.div_mod a b ltac:(lia)) as E. pose proof (Z.mod_pos_bound a b Hb) as B.
  set (q := a / b) in *. set (r := a mod b) in *. clearbody q r. repeat case_if; nia.
Qed.

Lemma py_round_range a b k : 0 < b -> 0 <= a <= k * b -> 0 <= py_round a b <= k.
Proof.
  intros Hb Ha. pose proof (py_round_close a b Hb) as H. split.
  - assert (~ py_round a b <= -1); [|lia]. intros Hneg. nia.
  - assert (~ k + 1 <= py_round a b); [|lia]. intros Hbig. nia.
Qed.

Lemma drawn c s v : p_value s = Some v -> 0 <= v <= pc_max c -> 0 < pc_max c -> p_shown s <> Some (Some v) ->
  exists num pct, p_draw c s = Ok (mkPstate (p_value s) (p_pushed s) (p_period s) (Some (Some v)), [PDraw num (pc_max c) (Some pct)]) /\
    0 <= num <= pc_max c /\ num = (if pc_off c <? 0 then pc_max c - v else v) /\
    0 <= pct <= 100 /\ 2 * Z.abs (pct * pc_max c - v * 100) <= pc_max c.
Proof.
  intros Hv Hr Hm Hs. unfold p_draw. rewrite Hv.
  assert (E : opt2_eqb (p_shown s) (Some v) = false).
  { destruct (p_shown s) as [[w|]|]; cbn; auto. destruct (w =? v) eqn:E; auto. exfalso. apply Hs. f_equal. f_equal. lia. }
  rewrite E. destruct (pc_max c =? 0) eqn:E0; [lia|].
  eexists _, _. split; [reflexivity|]. split; [case_if; lia|]. split; [reflexivity|]. split.
  - apply py_round_range; lia.
  - apply py_round_close. lia.
Qed.

(* ---- C40 ---- *)

Definition at_k {A} (l : list A) (k n : nat) : Prop := match l with [] => True | _ => n = (k mod length l)%nat end.
Definition rinv (c : rconf) (k : nat) (s : rstate) : Prop :=
  at_k (ro_msgs c) k (q_msgs s) /\ at_k (ro_rel c) k (q_rel s) /\ at_k (ro_leds c) k (q_leds s) /\
  at_k (disp_colors c) k (q_disp s) /\ at_k (ro_texts c) k (q_texts s).

Lemma mod_step k n : (0 < n)%nat -> (S k mod n = if (n <=? S (k mod n))%nat then 0 else S (k mod n))%nat.
Proof.
  intros Hn. pose proof (Nat.div_mod k n ltac:(lia)) as E. pose proof (Nat.mod_upper_bound k n ltac:(lia)) as B.
  destruct (n <=? S (k mod n))%nat eqn:C.
  - apply Nat.leb_le in C. symmetry. apply (Nat.mod_unique _ _ (S (k / n))); nia.
  - apply Nat.leb_gt in C. symmetry. apply (Nat.mod_unique _ _ (k / n)); nia.
Qed.

Lemma wrap_step {A} (l : list A) k n : at_k l k n -> at_k l (S k) (wrap l (S n)).
Proof.
  unfold at_k, wrap. destruct l as [|x l]; auto. intros ->. rewrite mod_step by (cbn; lia). reflexivity.
Qed.

Lemma when_cyclic {A} (l : list A) k n f : at_k l k n -> when l n f = Ok (map f (cyclic l k)).
Proof.
  unfold at_k, when, cyclic, at_pos. destruct l as [|x l]; auto. intros ->.
  rewrite (nth_error_nth' _ x).
  - reflexivity.
  - apply Nat.mod_upper_bound. cbn. lia.
Qed.

Lemma rinv_start c : rinv c 0 new_rstate.
Proof. unfold rinv, at_k, new_rstate. cbn [q_msgs q_rel q_leds q_disp q_texts]. repeat split; match goal with |- match ?l with _ => _ end => destruct l end; auto; symmetry; apply Nat.mod_0_l; cbn; lia. Qed.

Lemma rinv_next c k s : rinv c k s -> rinv c (S k) (next_step c s).
Proof. intros (H1 & H2 & H3 & H4 & H5). unfold rinv, next_step. cbn [q_msgs q_rel q_leds q_disp q_texts]. repeat split; apply wrap_step; auto. Qed.

Lemma draw_ok c k s : rinv c k s -> r_draw c s = Ok (shown_at c k).
Proof.
  intros (H1 & H2 & H3 & H4 & H5). unfold r_draw, shown_at. rewrite (when_cyclic _ k _ _ H3), (when_cyclic _ k _ _ H5), (when_cyclic _ k _ _ H4).
  reflexivity.
Qed.

Lemma rotate_trace c ops : forall k s, rinv c k s -> exists s', rrun c s ops = Ok (s', expected c k ops).
Proof.
  induction ops as [|o ops IH]; intros k s H; [exists s; reflexivity|].
  destruct o; cbn [rrun rstep expected].
  - destruct H as (H1 & H'). rewrite (when_cyclic _ k _ _ H1). destruct (IH k s (conj H1 H')) as (s' & E). rewrite E. eauto.
  - pose proof H as (H1 & H2 & H'). rewrite (when_cyclic _ k _ _ H2). pose proof (rinv_next c k s H) as Hn.
    rewrite (draw_ok _ _ _ Hn). destruct (IH _ _ Hn) as (s' & E). rewrite E. exists s'. rewrite app_assoc. reflexivity.
  - rewrite (draw_ok _ _ _ H). destruct (IH k s H) as (s' & E). rewrite E. eauto.
Qed.

Lemma rotate_main c ops : exists s, rrun c new_rstate ops = Ok (s, expected c 0 ops).
Proof. apply rotate_trace, rinv_start. Qed.

Lemma bytes_map {A} (f : A -> revent) l : (forall x, match f x with RSend _ => False | _ => True end) -> bytes_sent (map f l) = [].
Proof. intros H. induction l as [|x l IH]; auto. cbn. specialize (H x). destruct (f x); [tauto| | |]; cbn; exact IH. Qed.
Lemma bytes_sent_sends l : bytes_sent (map RSend l) = l.
Proof. induction l as [|x l IH]; auto. cbn. f_equal. exact IH. Qed.
Lemma bytes_shown c k : bytes_sent (shown_at c k) = [].
Proof.
  unfold shown_at, bytes_sent. rewrite !flat_map_app. fold (bytes_sent (map RLed (cyclic (ro_leds c) k))).
  fold (bytes_sent (map RText (cyclic (ro_texts c) k))). fold (bytes_sent (map RBack (cyclic (disp_colors c) k))).
  rewrite !bytes_map; auto.
Qed.
Lemma bytes_app a b : bytes_sent (a ++ b) = bytes_sent a ++ bytes_sent b.
Proof. apply flat_map_app. Qed.

Lemma rotate_alternating c n : forall k,
  bytes_sent (expected c k (flat_map (fun _ => [RPush; RRelease]) (seq 0 n))) =
  flat_map (fun j => cyclic (ro_msgs c) j ++ cyclic (ro_rel c) j) (seq k n).
Proof.
  induction n as [|n IH]; intros k; [reflexivity|].
  cbn [seq flat_map]. rewrite <- seq_shift. rewrite flat_map_concat_map, map_map, <- flat_map_concat_map.
  cbn [app expected]. rewrite !bytes_app, !bytes_sent_sends, bytes_shown. cbn [app]. rewrite IH, app_assoc. reflexivity.
Qed.

Lemma rotate_presses c n : exists s ev, rrun c new_rstate (flat_map (fun _ => [RPush; RRelease]) (seq 0 n)) = Ok (s, ev) /\
  bytes_sent ev = flat_map (fun j => cyclic (ro_msgs c) j ++ cyclic (ro_rel c) j) (seq 0 n).
Proof.
  destruct (rotate_main c (flat_map (fun _ => [RPush; RRelease]) (seq 0 n))) as (s & E). exists s. eexists. split; [exact E|]. apply rotate_alternating.
Qed.

Lemma boomerang_led pc1 pc2 bright dim color text n k i cs c s : (2 <= n)%nat -> boomerang pc1 pc2 bright dim color text n = Ok cs ->
  nth_error cs i = Some c -> rinv c k s ->
  exists ev, rstep c s RDraw = Ok (s, ev) /\ led_of ev = [if (i =? n - 1 - k mod n)%nat then bright else dim].
Proof.
  intros Hn Hb Hc Hi. unfold boomerang, rotating in Hb. destruct (1 <? n)%nat eqn:E1; [|apply Nat.ltb_ge in E1; lia].
  assert (EL : length (boomerang_leds bright dim n) = n).
  { unfold boomerang_leds. rewrite E1, map_length, seq_length. reflexivity. }
  rewrite EL, Nat.ltb_irrefl in Hb. injection Hb as <-.
  assert (Hin : (i < n)%nat). { assert (nth_error (map (fun i0 : nat => if (i0 =? 0)%nat then mkRconf [[207; pc1]; [207; pc2]] [] (nth i0 (boomerang_leds bright dim n) []) [color] [text] else mkRconf [] [] (nth i0 (boomerang_leds bright dim n) []) [] []) (seq 0 n)) i <> None) as Hne by congruence; apply nth_error_Some in Hne; rewrite map_length, seq_length in Hne; exact Hne. }
  assert (ELeds : ro_leds c = map (fun j => if (i =? n - j - 1)%nat then bright else dim) (seq 0 n)).
  { rewrite nth_error_map in Hc. rewrite (nth_error_nth' _ 0%nat) in Hc by (rewrite seq_length; lia). rewrite seq_nth in Hc by lia.
    cbn [option_map] in Hc. injection Hc as <-.
    replace (ro_leds (if (0 + i =? 0)%nat then _ else _)) with (nth i (boomerang_leds bright dim n) []) by (cbn; destruct i; reflexivity).
    unfold boomerang_leds. rewrite E1.
    rewrite (nth_indep _ _ ((fun i0 => map (fun j => if (i0 =? n - j - 1)%nat then bright else dim) (seq 0 n)) 0%nat)) by (rewrite map_length, seq_length; lia).
    rewrite (map_nth (fun i0 => map (fun j => if (i0 =? n - j - 1)%nat then bright else dim) (seq 0 n))). rewrite seq_nth by lia. reflexivity. }
  exists (shown_at c k). split; [cbn [rstep]; rewrite (draw_ok c k s); auto|]. unfold shown_at, led_of. rewrite !flat_map_app.
  assert (Z1 : forall l, flat_map (fun e => match e with RLed c0 => [c0] | _ => [] end) (map RText l) = []) by (induction l; auto).
  assert (Z2 : forall l, flat_map (fun e => match e with RLed c0 => [c0] | _ => [] end) (map RBack l) = []) by (induction l; auto).
  rewrite Z1, Z2, !app_nil_r, ELeds. clear ELeds Hc Hi Z1 Z2. unfold cyclic. destruct (map _ (seq 0 n)) eqn:Em.
  { apply (f_equal (@length Z)) in Em. rewrite map_length, seq_length in Em. cbn in Em. lia. }
  cbn [map flat_map app]. f_equal. rewrite <- Em, map_length, seq_length.
  pose proof (Nat.mod_upper_bound k n ltac:(lia)) as B.
  rewrite (nth_indep _ _ ((fun j => if (i =? n - j - 1)%nat then bright else dim) 0%nat)) by (rewrite map_length, seq_length; lia).
  rewrite (map_nth (fun j => if (i =? n - j - 1)%nat then bright else dim)), seq_nth by lia.
  replace (n - (0 + k mod n) - 1)%nat with (n - 1 - k mod n)%nat by lia. reflexivity.
Qed.

Lemma rotate_pos c ops : forall k s s' ev, rinv c k s -> rrun c s ops = Ok (s', ev) -> rinv c (releases ops + k) s'.
Proof.
  induction ops as [|o ops IH]; intros k s s' ev H Hr.
  - injection Hr as <- <-. exact H.
  - cbn [rrun] in Hr. destruct (rstep c s o) as [[s1 e1]|] eqn:E; [|discriminate].
    destruct (rrun c s1 ops) as [[s2 e2]|] eqn:E2; [|discriminate]. injection Hr as <- <-.
    destruct o; cbn [rstep] in E.
    + destruct (when _ _ _) in E; [|discriminate]. injection E as <- <-. eapply IH; eauto.
    + destruct (when _ _ _) in E; [|discriminate]. destruct (r_draw c (next_step c s)); [|discriminate]. injection E as <- <-.
      replace (releases (RRelease :: ops) + k)%nat with (releases ops + S k)%nat by (unfold releases; cbn; lia).
      eapply IH; eauto. apply rinv_next; auto.
    + destruct (r_draw c s); [|discriminate]. injection E as <- <-. eapply IH; eauto.
Qed.

Lemma boomerang_shown pc1 pc2 bright dim color text n cs c i ops s ev0 : (2 <= n)%nat ->
  boomerang pc1 pc2 bright dim color text n = Ok cs -> nth_error cs i = Some c -> rrun c new_rstate ops = Ok (s, ev0) ->
  exists ev, rstep c s RDraw = Ok (s, ev) /\ led_of ev = [if (i =? n - 1 - releases ops mod n)%nat then bright else dim].
Proof.
  intros Hn Hb Hc Hr. eapply boomerang_led; eauto. pose proof (rotate_pos c ops 0 _ _ _ (rinv_start c) Hr) as H.
  rewrite Nat.add_0_r in H. exact H.
Qed.

Lemma boomerang_ok pc1 pc2 bright dim color text n : exists cs, boomerang pc1 pc2 bright dim color text n = Ok cs /\
  length cs = Nat.max 1 n /\ (forall c, nth_error cs 0 = Some c -> ro_msgs c = [[207; pc1]; [207; pc2]] /\ ro_rel c = []) /\
  (forall i c, (0 < i)%nat -> nth_error cs i = Some c -> ro_msgs c = [] /\ ro_rel c = []).
Proof.
  unfold boomerang, rotating, boomerang_leds. destruct (1 <? n)%nat eqn:E.
  - rewrite map_length, seq_length, Nat.ltb_irrefl. eexists. split; [reflexivity|]. rewrite map_length, seq_length.
    apply Nat.ltb_lt in E. split; [lia|]. split.
    + intros c H. destruct n; [lia|]. cbn in H. injection H as <-. auto.
    + intros i c Hi H. rewrite nth_error_map in H. destruct (nth_error (seq 0 n) i) eqn:En; [|discriminate].
      assert (i < n)%nat by (assert (nth_error (seq 0 n) i <> None) as Hne by congruence; apply nth_error_Some in Hne; rewrite seq_length in Hne; exact Hne).
      rewrite (nth_error_nth' _ 0%nat) in En by (rewrite seq_length; lia). rewrite seq_nth in En by lia. injection En as <-.
      cbn [option_map] in H. destruct i; [lia|]. cbn in H. injection H as <-. auto.
  - apply Nat.ltb_ge in E. eexists. split; [reflexivity|]. split; [cbn [length]; lia|]. split.
    + intros c H. injection H as <-. auto.
    + intros i c Hi H. destruct i as [|[|i]]; [lia|discriminate|discriminate].
Qed.

Lemma default_maximum sysex w : fits sysex w <-> 0 <= w <= derived_max sysex None.
Proof.
  unfold fits, derived_max. destruct sysex.
  - split; [intros (hi & lo & H1 & H2 & ->); lia|]. intros H. exists (w / 128), (w mod 128).
    pose proof (Z.mod_pos_bound w 128 ltac:(lia)). pose proof (Z.div_mod w 128 ltac:(lia)).
    assert (0 <= w / 128) by (apply Z.div_pos; lia). repeat split; lia.
  - lia.
Qed.
Lemma default_range sysex off rep fb ops t v :
  In (t, v) (sent (snd (run (pstep (mkPconf off (derived_max sysex None) rep fb)) (new_pstate (mkPconf off (derived_max sysex None) rep fb)) ops))) ->
  fits sysex v.
Proof.
  intros H. apply default_maximum. change (derived_max sysex None) with (pc_max (mkPconf off (derived_max sysex None) rep fb)) at 1.
  eapply history_range; [|exact H]. destruct sysex; cbn; lia.
Qed.
