From Verif.Lib Require Import Base.
From Verif.Model Require Import BinaryCb.
From Verif.Spec Require Import BinaryCb.
Open Scope Z_scope.

Lemma opt_eqb_spec a b : opt_eqb a b = true <-> a = b.
Proof.
  destruct a, b; cbn; split; intros H; try discriminate; try reflexivity.
  - f_equal. lia.
  - inv H. lia.
Qed.

Lemma cur_last c ops : b_cur (fst (run (bstep c) (binit c) ops)) = last_shown (rev ops).
Proof.
  induction ops as [|ops o IH] using rev_ind_snoc; [reflexivity|].
  rewrite run_snoc, rev_app_distr. cbn [fst rev app]. set (s := fst (run (bstep c) (binit c) ops)) in *.
  destruct o as [v col|b|b|]; cbn [bstep fst last_shown]; auto.
  unfold update_displays. destruct (b_cur s) as [cur|] eqn:Ec.
  - destruct (opt_eqb v cur) eqn:E.
    + apply opt_eqb_spec in E. subst. case_if; cbn; auto.
    + case_if; cbn; auto.
  - case_if; cbn; auto.
Qed.

Lemma update_on c s v col :
  b_on (fst (update_displays c s v col)) =
  (match b_cur s with Some cur => if opt_eqb v cur then b_on s else evaluate c (b_on s) v | None => evaluate c (b_on s) v end).
Proof.
  unfold update_displays. destruct (b_cur s) as [cur|]; [destruct (opt_eqb v cur)|]; case_if; reflexivity.
Qed.

Lemma update_off c s v col :
  b_off (fst (update_displays c s v col)) =
  (if match b_cur s with Some cur => opt_eqb v cur | None => false end then b_off s
   else match evaluate c (b_on s) v, v with false, Some z => remember (bc_disable c) (b_off s) z | _, _ => b_off s end).
Proof.
  unfold update_displays. destruct (b_cur s) as [cur|]; [destruct (opt_eqb v cur)|]; case_if; reflexivity.
Qed.

Lemma evaluate_true c on v : bc_mode c <> NO_STATE_CHANGE -> evaluate c on (Some v) = true <-> compares (bc_mode c) v (bc_ref c).
Proof. unfold evaluate, compares. destruct (bc_mode c); intros H; try congruence; lia. Qed.

Lemma evaluate_false c on v : bc_mode c <> NO_STATE_CHANGE -> evaluate c on (Some v) = false <-> ~ compares (bc_mode c) v (bc_ref c).
Proof. intros H. rewrite <- (evaluate_true c on v H). destruct (evaluate c on (Some v)); intuition congruence. Qed.

Lemma mode_dec m : {m = NO_STATE_CHANGE} + {m <> NO_STATE_CHANGE}.
Proof. destruct m; auto; right; discriminate. Qed.

Lemma on_after_run c ops : on_after (bc_mode c) (bc_ref c) (rev ops) (b_on (fst (run (bstep c) (binit c) ops))).
Proof.
  induction ops as [|ops o IH] using rev_ind_snoc; [constructor|].
  pose proof (cur_last c ops) as Hc.
  rewrite run_snoc, rev_app_distr. cbn [fst rev app]. set (s := fst (run (bstep c) (binit c) ops)) in *.
  destruct o as [v col|b|b|]; cbn [bstep fst b_on];
    [|apply oa_user|apply oa_force|apply oa_renew; auto].
  rewrite update_on. destruct (match b_cur s with Some cur => opt_eqb v cur | None => false end) eqn:Eq.
  - destruct (b_cur s) as [cur|]; [|discriminate]. rewrite Eq. apply opt_eqb_spec in Eq. subst cur.
    apply oa_same; auto. unfold same_value. congruence.
  - assert (~ same_value (last_shown (rev ops)) v) as Hns.
    { unfold same_value. rewrite <- Hc. destruct (b_cur s) as [cur|]; [|discriminate]. intros E. inv E.
      rewrite (proj2 (opt_eqb_spec v v) eq_refl) in Eq. discriminate. }
    replace (match b_cur s with Some cur => if opt_eqb v cur then b_on s else evaluate c (b_on s) v | None => evaluate c (b_on s) v end)
      with (evaluate c (b_on s) v) by (destruct (b_cur s) as [cur|]; [rewrite Eq|]; reflexivity).
    destruct v as [v|]; [|apply oa_none; auto].
    destruct (mode_dec (bc_mode c)) as [Hm|Hm].
    + replace (evaluate c (b_on s) (Some v)) with (b_on s) by (unfold evaluate; rewrite Hm; reflexivity). apply oa_keep; auto.
    + destruct (evaluate c (b_on s) (Some v)) eqn:Ev.
      * apply oa_true; auto. eapply evaluate_true; eauto.
      * apply oa_false; auto. eapply evaluate_false; eauto.
Qed.

Lemma on_after_fun m ref rh a b : on_after m ref rh a -> on_after m ref rh b -> a = b.
Proof.
  intros H. revert b. induction H; intros b' H'; inv H'; auto; try contradiction; try tauto; try congruence.
Qed.

Lemma c31_state c ops b : on_after (bc_mode c) (bc_ref c) (rev ops) b <-> b_on (fst (run (bstep c) (binit c) ops)) = b.
Proof.
  split.
  - intros H. eapply on_after_fun; eauto. apply on_after_run.
  - intros <-. apply on_after_run.
Qed.

Lemma c31_silent c s v col : Forall (fun e => is_show e = true) (snd (update_displays c s v col)).
Proof. unfold update_displays. case_if; cbn; repeat constructor. Qed.

(* What is on the display is what has been shown last. *)
Definition shown_inv (c : bcfg) (s : bstate) (evs : list bevent) : Prop :=
  forall col d, b_col s = Some col -> b_disp s = Some d ->
    exists pre post, evs = pre ++ show c d col :: post /\ Forall (fun e => is_show e = false) post.

Lemma state_changed_noshow c s : Forall (fun e => is_show e = false) (state_changed c s).
Proof.
  unfold state_changed. apply Forall_app. split; [|repeat constructor].
  destruct (b_off s) as [x|l]; [destruct (b_on s); [|destruct x]|destruct (all_some l)]; repeat constructor.
Qed.

Lemma shown_run c ops : let r := run (bstep c) (binit c) ops in shown_inv c (fst r) (snd r).
Proof.
  induction ops as [|ops o IH] using rev_ind_snoc.
  - intros r col d H. discriminate.
  - cbn zeta in *. rewrite run_snoc. cbn [fst snd].
    set (s := fst (run (bstep c) (binit c) ops)) in *. set (evs := snd (run (bstep c) (binit c) ops)) in *.
    destruct o as [v col|b|b|]; cbn [bstep fst snd].
    + unfold update_displays.
      set (s1 := match b_cur s with Some cur => if opt_eqb v cur then s else _ | None => _ end).
      assert (b_col s1 = b_col s /\ b_disp s1 = b_disp s) as [Ec Ed].
      { unfold s1. destruct (b_cur s) as [cur|]; [destruct (opt_eqb v cur)|]; auto. }
      case_if; cbn [fst snd].
      * intros col' d' Hc Hd. cbn in Hc, Hd. inv Hc. inv Hd. exists evs, []. auto.
      * rewrite app_nil_r. intros col' d' Hc Hd. apply IH; congruence.
    + intros col d Hc Hd. cbn in Hc, Hd. destruct (IH col d Hc Hd) as (pre & post & E & Hp).
      exists pre, (post ++ state_changed c (mkB b (b_cur s) (b_disp s) (b_col s) (b_off s))).
      split; [rewrite E, <- app_assoc; reflexivity|]. apply Forall_app. split; auto. apply state_changed_noshow.
    + rewrite app_nil_r. intros col d Hc Hd. apply IH; auto.
    + intros col d Hc. discriminate.
Qed.

Lemma update_display_fields c s v col : let s' := fst (update_displays c s v col) in
  b_col s' = Some col /\ b_disp s' = Some (b_on s').
Proof.
  unfold update_displays. set (s1 := match b_cur s with Some cur => if opt_eqb v cur then s else _ | None => _ end).
  destruct (negb (opt_eqb (Some col) (b_col s1)) || _) eqn:E; cbn [fst b_col b_disp b_on]; auto.
  apply orb_false_iff in E. destruct E as [E1 E2]. apply negb_false_iff in E1, E2. apply opt_eqb_spec in E1.
  destruct (b_disp s1) as [d|]; [|discriminate]. apply eqb_prop in E2. subst. auto.
Qed.

Lemma c31_displayed c ops v col : let r := run (bstep c) (binit c) (ops ++ [Update v col]) in
  exists pre post, snd r = pre ++ show c (b_on (fst r)) col :: post /\ Forall (fun e => is_show e = false) post.
Proof.
  intros r. apply (shown_run c (ops ++ [Update v col])); unfold r; rewrite run_snoc; cbn [fst bstep]; apply update_display_fields.
Qed.

(* ---- C32 ---- *)

Lemma last_off_fun m ref rh x y : last_off m ref rh x -> last_off m ref rh y -> x = y.
Proof.
  intros H. revert y. induction H; intros y H'; inv H'; auto; try contradiction; try congruence;
    match goal with Hd : forall v col, _ <> _ |- _ => exfalso; eapply Hd; reflexivity end.
Qed.

(* The stored off value as a function of the remembered one. *)
Definition filled (init : offval) (r : option Z) : offval :=
  match init with OOne x => OOne (fill r x) | OMany l => OMany (map (fill r) l) end.

Lemma remember_filled init r v : remember init (filled init r) v = filled init (Some v).
Proof.
  destruct init as [[x|]|l]; cbn; auto. f_equal.
  induction l as [|[x|] l IH]; cbn; auto; f_equal; auto.
Qed.

Lemma off_run c ops : bc_mode c <> NO_STATE_CHANGE ->
  exists r, last_off (bc_mode c) (bc_ref c) (rev ops) r /\ b_off (fst (run (bstep c) (binit c) ops)) = filled (bc_disable c) r /\
  (forall v, last_shown (rev ops) = Some (Some v) -> ~ compares (bc_mode c) v (bc_ref c) -> r = Some v).
Proof.
  intros Hm. induction ops as [|ops o IH] using rev_ind_snoc.
  - exists None. split; [constructor|]. split; [|intros v H; discriminate]. cbn.
    destruct (bc_disable c) as [[x|]|l]; cbn; auto. f_equal. induction l as [|[x|] l IH]; cbn; f_equal; auto.
  - destruct IH as (r & Hlo & Hoff & Hsame). pose proof (cur_last c ops) as Hc.
    rewrite run_snoc, rev_app_distr. cbn [fst rev app]. set (s := fst (run (bstep c) (binit c) ops)) in *.
    destruct o as [v col|b|b|]; cbn [bstep fst b_off].
    + rewrite update_off. destruct v as [v|].
      * destruct (evaluate c (b_on s) (Some v)) eqn:Ev.
        -- apply evaluate_true in Ev; auto. exists r. split; [apply lo_on; auto|].
           split; [case_if; auto|]. intros v' E. cbn in E. inv E. tauto.
        -- apply evaluate_false in Ev; auto. exists (Some v). split; [apply lo_off; auto|]. split.
           ++ destruct (match b_cur s with Some cur => opt_eqb (Some v) cur | None => false end) eqn:Eq.
              ** destruct (b_cur s) as [cur|]; [|discriminate]. apply opt_eqb_spec in Eq. subst cur.
                 rewrite (Hsame v) in Hoff; auto.
              ** rewrite Hoff. apply remember_filled.
           ++ intros v' E. cbn in E. inv E. auto.
      * exists r. split; [apply lo_unknown; auto|]. split; [|intros v' E; discriminate].
        case_if; auto.
    + exists r. split; [apply lo_other; auto; discriminate|]. auto.
    + exists r. split; [apply lo_other; auto; discriminate|]. auto.
    + exists r. split; [apply lo_other; auto; discriminate|]. split; auto. intros v E. discriminate.
Qed.

Lemma all_some_spec l zs : all_some l = Some zs <-> l = map Some zs.
Proof.
  revert zs. induction l as [|[x|] l IH]; intros zs; cbn.
  - split; intros H; [inv H; auto|]. destruct zs; [auto|discriminate].
  - destruct (all_some l) as [ys|]; cbn.
    + split; intros H.
      * inv H. cbn. f_equal. apply IH. auto.
      * destruct zs; [discriminate|]. cbn in H. inv H. f_equal. f_equal. assert (Some ys = Some zs) as E by (apply IH; auto). congruence.
    + split; intros H; [discriminate|]. destruct zs; [discriminate|]. cbn in H. inv H.
      assert (None = Some zs) by (apply IH; auto). discriminate.
  - split; intros H; [discriminate|]. destruct zs; discriminate.
Qed.

Lemma c32_one c ops x r : bc_mode c <> NO_STATE_CHANGE -> bc_disable c = OOne x ->
  last_off (bc_mode c) (bc_ref c) (rev ops) r ->
  filter is_set (snd (bstep c (fst (run (bstep c) (binit c) ops)) (User false))) =
    match fill r x with Some z => [ESet (bc_has_dis_map c) (SOne z)] | None => [] end /\
  filter is_set (snd (bstep c (fst (run (bstep c) (binit c) ops)) (User true))) = [ESet false (bc_enable c)].
Proof.
  intros Hm Hx Hr. destruct (off_run c ops Hm) as (r' & Hr' & Hoff & _).
  pose proof (last_off_fun _ _ _ _ _ Hr Hr'). subst r'. rewrite Hx in Hoff. cbn in Hoff.
  set (s := fst (run (bstep c) (binit c) ops)) in *. cbn [bstep snd]. unfold state_changed. cbn [b_off b_on]. rewrite Hoff.
  split; [|reflexivity]. destruct (fill r x); reflexivity.
Qed.

Lemma c32_many c ops l r : bc_mode c <> NO_STATE_CHANGE -> bc_disable c = OMany l ->
  last_off (bc_mode c) (bc_ref c) (rev ops) r ->
  let sent on := filter is_set (snd (bstep c (fst (run (bstep c) (binit c) ops)) (User on))) in
  (forall zs, map (fill r) l = map Some zs ->
     sent false = [ESet (bc_has_dis_map c) (SMany zs)] /\ sent true = [ESet false (bc_enable c)]) /\
  (In None (map (fill r) l) -> sent false = [] /\ sent true = []).
Proof.
  intros Hm Hx Hr. destruct (off_run c ops Hm) as (r' & Hr' & Hoff & _).
  pose proof (last_off_fun _ _ _ _ _ Hr Hr'). subst r'. rewrite Hx in Hoff. cbn in Hoff.
  set (s := fst (run (bstep c) (binit c) ops)) in *. cbn zeta. cbn [bstep snd]. unfold state_changed. cbn [b_off b_on]. rewrite Hoff.
  split.
  - intros zs E. apply all_some_spec in E. rewrite E. split; reflexivity.
  - intros Hin. replace (all_some (map (fill r) l)) with (@None (list Z)); [split; reflexivity|].
    destruct (all_some (map (fill r) l)) as [zs|] eqn:E; auto. apply all_some_spec in E. rewrite E in Hin.
    apply in_map_iff in Hin. destruct Hin as (y & Ey & _). discriminate.
Qed.

Lemma last_off_exists m ref rh : exists x, last_off m ref rh x.
Proof.
  induction rh as [|o rh (x & IH)]; [exists None; constructor|].
  destruct o as [[v|] col|b|b|]; try (exists x; apply lo_other; [discriminate|assumption]).
  - assert (compares m v ref \/ ~ compares m v ref) as [H|H].
    { destruct m; cbn; lia. }
    + exists x. apply lo_on; auto.
    + exists (Some v). apply lo_off; auto.
  - exists x. apply lo_unknown; auto.
Qed.

(* ---- effect slots ---- *)

Lemma base_evs_app a b : base_evs (a ++ b) = base_evs a ++ base_evs b.
Proof. apply flat_map_app. Qed.
Lemma base_evs_eb l : base_evs (map EB l) = l.
Proof. induction l as [|x l IH]; cbn; auto. f_equal. exact IH. Qed.
Lemma texts_app a b : texts (a ++ b) = texts a ++ texts b.
Proof. apply flat_map_app. Qed.
Lemma texts_eb l : texts (map EB l) = [].
Proof. induction l as [|x l IH]; cbn; auto. Qed.

Lemma e_step_base c s o : run (bstep (e_base c)) (e_b s) (base_op c o) = (e_b (fst (e_step c s o)), base_evs (snd (e_step c s o))).
Proof.
  destruct o as [v ty|on|on|]; cbn [base_op].
  2,3,4: unfold e_step, e_inherit; rewrite run_cons; destruct (bstep (e_base c) (e_b s) _) as [b ev]; cbn [fst snd run fold_left e_b];
    rewrite base_evs_eb, app_nil_r; reflexivity.
  cbn [e_step]. unfold e_update. fold (slot_category c ty). set (b0 := e_b s). set (col := e_color_of c (slot_category c ty) ty).
  destruct (slot_category c ty =? CATEGORY_NONE).
  - cbn [app]. rewrite run_cons. cbn [bstep fst snd]. rewrite run_cons. cbn [bstep app run fold_left fst snd].
    destruct (update_displays (e_base c) _ v col) as [b2 ev]. cbn [fst snd e_b]. rewrite app_nil_r, base_evs_app, base_evs_eb.
    destruct (opt_eqb (e_type s) ty); reflexivity.
  - cbn [app]. rewrite run_cons. cbn [bstep app run fold_left fst snd].
    destruct (update_displays (e_base c) b0 v col) as [b2 ev]. cbn [fst snd e_b]. rewrite app_nil_r, base_evs_app, base_evs_eb.
    destruct (opt_eqb (e_type s) ty); reflexivity.
Qed.
Lemma effect_base c ops : run (bstep (e_base c)) (binit (e_base c)) (base_ops c ops) =
  (e_b (fst (run (e_step c) (e_init c) ops)), base_evs (snd (run (e_step c) (e_init c) ops))).
Proof.
  induction ops as [|ops o IH] using rev_ind_snoc; [reflexivity|]. unfold base_ops in *. rewrite flat_map_app, run_app, IH. cbn [fst snd flat_map].
  rewrite app_nil_r, e_step_base, run_snoc. cbn [fst snd]. rewrite base_evs_app. reflexivity.
Qed.

Lemma e_type_known c ops : e_type (fst (run (e_step c) (e_init c) ops)) = known_type (rev ops).
Proof.
  induction ops as [|ops o IH] using rev_ind_snoc; [reflexivity|]. rewrite run_snoc, rev_app_distr. cbn [fst rev app known_type].
  destruct o as [v ty|on|on|]; cbn [e_step]; auto. unfold e_update. destruct (update_displays _ _ _ _). reflexivity.
Qed.
Lemma opt_eqb_eq a b : opt_eqb a b = true <-> a = b.
Proof. destruct a, b; cbn; split; intros H; try discriminate; auto; [f_equal; lia|injection H; lia]. Qed.
Lemma effect_texts c ops o : texts (snd (e_step c (fst (run (e_step c) (e_init c) ops)) o)) =
  match o with
  | EReport _ ty => if opt_eqb (known_type (rev ops)) ty then [] else [(slot_category c ty, ty)]
  | _ => []
  end.
Proof.
  destruct o as [v ty|on|on|]; try apply texts_eb. cbn [e_step]. unfold e_update. rewrite e_type_known.
  destruct (update_displays _ _ _ _) as [b2 ev]. cbn [snd]. rewrite texts_app, texts_eb, app_nil_r. destruct (opt_eqb _ ty); reflexivity.
Qed.
(* the text shown last is that of the last reported type, if that type is known *)
Lemma effect_text_current c ops v t : exists before, texts (snd (run (e_step c) (e_init c) (ops ++ [EReport v (Some t)]))) = before ++ [(e_category c t, Some t)].
Proof.
  assert (G : forall ops, match known_type (rev ops) with Some t => exists before, texts (snd (run (e_step c) (e_init c) ops)) = before ++ [(e_category c t, Some t)] | None => True end).
  { clear. induction ops as [|ops o IH] using rev_ind_snoc; [exact I|]. rewrite rev_app_distr. cbn [rev app known_type]. rewrite run_snoc. cbn [snd].
    rewrite texts_app, effect_texts. destruct o as [v ty|on|on|]; cbn [known_type]; rewrite ?app_nil_r; auto.
    destruct (opt_eqb (known_type (rev ops)) ty) eqn:E; [apply opt_eqb_eq in E; rewrite <- E, app_nil_r; exact IH|].
    destruct ty as [t|]; auto. eexists. reflexivity. }
  pose proof (G (ops ++ [EReport v (Some t)])) as H. rewrite rev_app_distr in H. exact H.
Qed.
