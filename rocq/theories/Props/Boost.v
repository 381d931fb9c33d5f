(* C98: the volume boost. *)
From Verif.Lib Require Import Base.
From Verif.Model Require Import Period PushButton BinaryCb Boost.
From Verif.Spec Require Import Boost.
Open Scope Z_scope.
Local Open Scope list_scope.

(* ---- What single steps do ---- *)
Lemma display_frame c s : t_known (display c s) = t_known s /\ t_vol (display c s) = t_vol s /\ t_wire (display c s) = t_wire s /\ t_cmds (display c s) = t_cmds s.
Proof. unfold display, cb, bstep, update_displays. destruct (_ || _); cbn; auto. Qed.
Lemma opt_eqb_true a b : opt_eqb a b = true -> a = b.
Proof. destruct a, b; cbn; intros H; try discriminate; [apply Z.eqb_eq in H; congruence | reflexivity]. Qed.
Lemma opt_eqb_refl a : opt_eqb a a = true.
Proof. destruct a; cbn; [apply Z.eqb_refl | reflexivity]. Qed.

(* The callback after its displays are updated *)
Lemma display_same c s : b_cur (t_cb s) = Some (t_known s) ->
  b_cur (t_cb (display c s)) = Some (t_known s) /\ b_on (t_cb (display c s)) = b_on (t_cb s) /\ b_off (t_cb (display c s)) = b_off (t_cb s).
Proof. intros H. unfold display, cb, bstep, update_displays. rewrite H, opt_eqb_refl. destruct (_ || _); cbn; auto. Qed.
Lemma display_new c s : b_cur (t_cb s) <> Some (t_known s) ->
  b_cur (t_cb (display c s)) = Some (t_known s) /\ b_on (t_cb (display c s)) = evaluate c (b_on (t_cb s)) (t_known s) /\
  b_off (t_cb (display c s)) = (match evaluate c (b_on (t_cb s)) (t_known s), t_known s with false, Some z => remember (bc_disable c) (b_off (t_cb s)) z | _, _ => b_off (t_cb s) end).
Proof.
  intros H. unfold display, cb, bstep, update_displays.
  destruct (b_cur (t_cb s)) as [k|] eqn:E.
  - destruct (opt_eqb (t_known s) k) eqn:Q; [apply opt_eqb_true in Q; congruence|]. destruct (_ || _); cbn; auto.
  - destruct (_ || _); cbn; auto.
Qed.

(* What an event of the button is *)
Lemma button_cases b o b' es : (exists t, o = BPush t \/ o = BRelease t) -> button_step b o = (b', es) ->
  (es = [] /\ b_state b' = b_state b) \/ (exists x, es = [Command x; ShowState] /\ b_state b' = x) \/ (b_mode b = ONE_SHOT /\ es = [ShowState] /\ b_state b' = false).
Proof.
  intros [t [-> | ->]]; unfold button_step, push, release, set_state; destruct b as [m st p]; destruct m; cbn;
    try (destruct st; cbn; intros [= <- <-]; eauto 6; fail).
  destruct (p_exceeded p t) as [r p']; destruct r, st; cbn; intros [= <- <-]; eauto 6.
Qed.
Lemma mode_kept b o b' es : button_step b o = (b', es) -> b_mode b' = b_mode b.
Proof.
  destruct o; unfold button_step, push, release, set_state, feedback_state, reset_button; destruct b as [m st p]; destruct m; cbn;
    try (destruct st; cbn; intros [= <- <-]; reflexivity); try (destruct (p_exceeded p now) as [[] p']; destruct st; cbn; intros [= <- <-]; reflexivity); intros [= <- <-]; reflexivity.
Qed.

Section Boost.
Variable boost : Z.
Variable auto : bool.
Local Notation c := (boost_cfg boost auto).

Lemma evaluate_boost on k : evaluate c on k = match k with Some v => boost <=? v | None => false end.
Proof. destruct k; reflexivity. Qed.

(* ---- Commands ---- *)
Definition off_val (s : sys) : option Z := match b_off (t_cb s) with OOne x => x | OMany _ => None end.
Definition single (s : sys) : Prop := exists x, b_off (t_cb s) = OOne x.
Definition told (s : sys) (x : bool) : Z := if x then boost else match off_val s with Some z => z | None => t_vol s end.
Lemma command s x : single s ->
  let s' := action c s (Command x) in
  t_vol s' = told s x /\ t_wire s' = t_wire s ++ [told s x] /\ t_known s' = t_known s /\ t_cmds s' = t_cmds s ++ [x] /\
  b_on (t_cb s') = x /\ b_cur (t_cb s') = b_cur (t_cb s) /\ b_off (t_cb s') = b_off (t_cb s) /\ t_btn s' = t_btn s.
Proof.
  intros [o Ho]. unfold action, cb, bstep, state_changed, told, off_val. cbn [b_off]. rewrite Ho. destruct x, o; cbn; auto 10.
Qed.

(* ---- What holds in every state ---- *)
Record good (m : mode) (s : sys) : Prop := {
  g_single : single s;
  g_mode : b_mode (t_btn s) = m;
  g_cur : b_cur (t_cb s) = Some (t_known s) \/ (b_cur (t_cb s) = None /\ t_known s = None);
  g_off : forall v, t_known s = Some v -> v < boost -> auto = true -> off_val s = Some v;
  g_low : forall v, off_val s = Some v -> auto = true -> v < boost;
  g_fix : auto = false -> off_val s = Some 8191;
  g_on : m <> ONE_SHOT -> (auto = false -> 8191 < boost) -> off_val s <> None -> b_cur (t_cb s) = Some (t_known s) ->
         Forall (fun w => t_known s = Some w) (t_wire s) -> b_on (t_cb s) = evaluate c false (t_known s)
}.

Lemma off_same s s' : b_off (t_cb s') = b_off (t_cb s) -> off_val s' = off_val s.
Proof. unfold off_val. intros ->. reflexivity. Qed.
Lemma single_same s s' : b_off (t_cb s') = b_off (t_cb s) -> single s -> single s'.
Proof. unfold single. intros ->. exact (fun H => H). Qed.

Lemma good_display m s :
  single s -> b_mode (t_btn s) = m ->
  (b_cur (t_cb s) = Some (t_known s) -> good m s) ->
  (forall v, off_val s = Some v -> auto = true -> v < boost) ->
  (auto = false -> off_val s = Some 8191) ->
  good m (display c s) /\ (off_val s <> None -> off_val (display c s) <> None).
Proof.
  intros Hs Hm Hg Hl Hf. destruct (display_frame c s) as (Fk & Fv & Fw & Fc).
  assert (Hb : t_btn (display c s) = t_btn s) by (unfold display, cb, bstep, update_displays; destruct (_ || _); reflexivity).
  assert (D : {b_cur (t_cb s) = Some (t_known s)} + {b_cur (t_cb s) <> Some (t_known s)}) by (repeat decide equality).
  destruct D as [E | E].
  - destruct (display_same c s E) as (A & B & C). specialize (Hg E). destruct Hg as [G1 G2 G3 G4 G5 G6 G7].
    rewrite (off_same s (display c s) C). split; [|auto]. split; rewrite ?(off_same s (display c s) C), ?Hb, ?Fk, ?Fw, ?A, ?B; auto.
    exact (single_same s _ C G1).
  - destruct (display_new c s E) as (A & B & C). rewrite evaluate_boost in B, C. destruct Hs as [o Ho].
    assert (Hov : off_val s = o) by (unfold off_val; rewrite Ho; reflexivity).
    assert (Hd : b_off (t_cb (display c s)) = OOne (match t_known s with Some v => if boost <=? v then o else if auto then Some v else o | None => o end)).
    { rewrite C, Ho. destruct (t_known s) as [v|]; [|reflexivity]. destruct (boost <=? v); [reflexivity|]. unfold boost_cfg; cbn. destruct auto; reflexivity. }
    assert (Hdv : off_val (display c s) = match t_known s with Some v => if boost <=? v then o else if auto then Some v else o | None => o end) by (unfold off_val; rewrite Hd; reflexivity).
    split; [split|].
    + exists (match t_known s with Some v => if boost <=? v then o else if auto then Some v else o | None => o end). exact Hd.
    + rewrite Hb. exact Hm.
    + left. rewrite A, Fk. reflexivity.
    + rewrite Fk. intros v Hv Hlt Ha. rewrite Hdv, Hv, Ha. destruct (boost <=? v) eqn:Q; [apply Z.leb_le in Q; lia | reflexivity].
    + intros v. rewrite Hdv. intros Q Ha. rewrite Ha in Q. rewrite Hov in Hl. destruct (t_known s) as [u|]; [|auto]. destruct (boost <=? u) eqn:L; [auto|]. injection Q as <-. apply Z.leb_gt in L. exact L.
    + intros Ha. rewrite Hdv, Ha. specialize (Hf Ha). rewrite Hov in Hf. destruct (t_known s) as [u|]; [destruct (boost <=? u)|]; exact Hf.
    + intros _ _ _ _ _. rewrite B, Fk, evaluate_boost. reflexivity.
    + rewrite Hdv, Hov. intros Q. destruct (t_known s) as [u|]; [destruct (boost <=? u); [exact Q | destruct auto; [discriminate | exact Q]] | exact Q].
Qed.

Definition settled (s : sys) (b : button) : sys := mkSys b (mkB (b_state b) (b_cur (t_cb s)) (b_disp (t_cb s)) (b_col (t_cb s)) (b_off (t_cb s))) (t_known s) (t_vol s) (t_wire s) (t_cmds s).
(* The three cases of a press *)
Lemma press_cases s o : (exists t, o = BPush t \/ o = BRelease t) ->
  exists b, b_mode b = b_mode (t_btn s) /\
  ((b_state b = b_on (t_cb s) /\ press c s o = settled s b) \/
   (exists x, b_state b = x /\ press c s o = display c (action c (settled s b) (Command x))) \/
   (b_mode (t_btn s) = ONE_SHOT /\ press c s o = display c (settled s b))).
Proof.
  intros Ho. unfold press. destruct (button_step (put_state (t_btn s) (b_on (t_cb s))) o) as [b es] eqn:E.
  exists b. split; [apply mode_kept in E; exact E|]. destruct (button_cases _ _ _ _ Ho E) as [(-> & Hb) | [(x & -> & Hb) | (Hm & -> & Hb)]].
  - left. split; [exact Hb | reflexivity].
  - right; left. exists x. split; [exact Hb | reflexivity].
  - right; right. split; [exact Hm | reflexivity].
Qed.

Lemma good_press m s o : (exists t, o = BPush t \/ o = BRelease t) -> good m s ->
  good m (press c s o) /\ (off_val s <> None -> off_val (press c s o) <> None).
Proof.
  intros Ho G. pose proof G as [G1 G2 G3 G4 G5 G6 G7]. destruct (press_cases s o Ho) as (b & Hm & [(Hb & ->) | [(x & Hb & ->) | (H1 & ->)]]).
  - split; [|exact (fun H => H)]. split; cbn; try assumption; [congruence|]. rewrite Hb. exact G7.
  - assert (Hs : single (settled s b)) by exact G1.
    destruct (command _ x Hs) as (V & W & K & C & O & Cu & Of & B).
    assert (Ov : off_val (action c (settled s b) (Command x)) = off_val s) by (rewrite (off_same _ _ Of); reflexivity).
    rewrite <- Ov. apply good_display; rewrite ?Ov; auto.
    + exact (single_same _ _ Of Hs).
    + rewrite B. cbn. congruence.
    + rewrite Cu, K. cbn [settled t_cb b_cur t_known]. intros E. split.
      * exact (single_same _ _ Of Hs).
      * rewrite B. cbn. congruence.
      * left. rewrite Cu, K. exact E.
      * rewrite K, Ov. exact G4.
      * rewrite Ov. exact G5.
      * rewrite Ov. exact G6.
      * intros Hn Hl Hv _. rewrite K, W, O. cbn [settled t_known t_wire]. intros F. rewrite Forall_app in F. destruct F as [_ F]. inversion F as [|? ? F1 _]; subst.
        rewrite F1, evaluate_boost. rewrite Ov in Hv. unfold told. change (off_val (settled s b)) with (off_val s). destruct (b_state b); [symmetry; apply Z.leb_le; lia|].
        destruct (off_val s) as [z|] eqn:Q; [|congruence]. symmetry. apply Z.leb_gt. destruct auto eqn:A; [exact (G5 _ eq_refl eq_refl)|].
        specialize (G6 eq_refl). injection G6 as ->. exact (Hl eq_refl).
  - change (off_val s) with (off_val (settled s b)). apply good_display; auto.
    + cbn. congruence.
    + intros E. split; cbn; try assumption; [congruence|]. intros Hn. congruence.
Qed.

Lemma good_step m s o : good m s -> good m (step c s o) /\ (off_val s <> None -> off_val (step c s o) <> None).
Proof.
  intros G. pose proof G as [G1 G2 G3 G4 G5 G6 G7]. destruct o; cbn [step].
  - apply good_press; eauto.
  - apply good_press; eauto.
  - split; [|exact (fun H => H)]. split; cbn; try assumption. intros Hn Hl Hv Hc F. apply Forall_app in F. apply G7; tauto.
  - destruct (t_wire s) as [|v w] eqn:E; [auto|].
    set (s' := mkSys (t_btn s) (t_cb s) (Some v) (t_vol s) w (t_cmds s)). change (off_val s) with (off_val s').
    apply good_display; auto; try exact G1.
    cbn. intros Hk. destruct G3 as [G3 | (G3 & _)]; [|congruence]. rewrite G3 in Hk. injection Hk as Hk. split; cbn; try assumption; [|rewrite <- Hk; exact G4|].
    + left. congruence.
    + intros Hn Hl Hv _ F. change (b_on (t_cb s) = evaluate c false (Some v)). rewrite <- Hk. apply G7; auto. rewrite Hk. constructor; auto.
  - change (off_val s) with (off_val (cb c s Renew)). apply good_display; auto; try exact G1.
    cbn. discriminate.
  - split; [|exact (fun H => H)]. split; cbn; try assumption.
Qed.
Lemma good_start m hold v : good m (start m hold v c).
Proof.
  split; cbn; auto; try discriminate.
  - eexists; reflexivity.
  - unfold off_val; cbn. intros v' Q A. rewrite A in Q. discriminate.
  - unfold off_val; cbn. intros ->. reflexivity.
Qed.
Lemma good_run m h : forall s, good m s -> good m (run c s h) /\ (off_val s <> None -> off_val (run c s h) <> None).
Proof.
  induction h as [|o h IH]; intros s G; [auto|]. cbn [run fold_left]. destruct (good_step m s o G) as [G' N]. destruct (IH _ G') as [G'' N']. auto.
Qed.

(* ---- While nobody else changes the volume ---- *)
Definition state_of (v : Z) (w : option bool) : Z := match w with Some true => boost | _ => v end.
Record quiet (v : Z) (n : nat) (s : sys) : Prop := {
  q_off : off_val s = Some v;
  q_vol : t_vol s = state_of v (switched n s);
  q_len : (n <= List.length (t_cmds s))%nat;
  q_wire : Forall (fun w => w = v \/ w = boost) (t_wire s);
  q_known : t_known s = Some v \/ t_known s = Some boost;
  q_last : last (map Some (t_wire s)) (t_known s) = Some (t_vol s)
}.
Lemma switched_app n s s' x : (n <= List.length (t_cmds s))%nat -> t_cmds s' = t_cmds s ++ [x] -> switched n s' = Some x.
Proof. intros Hn Hc. unfold switched. rewrite Hc, skipn_app. replace (n - List.length (t_cmds s))%nat with O by lia. cbn [skipn]. rewrite rev_app_distr. reflexivity. Qed.
Lemma off_kept v s : auto = true -> off_val s = Some v -> single s -> (t_known s = Some v \/ t_known s = Some boost) -> off_val (display c s) = Some v.
Proof.
  intros Ha Ho [o Hs] Hk. unfold off_val in *. rewrite Hs in Ho. subst o.
  assert (D : {b_cur (t_cb s) = Some (t_known s)} + {b_cur (t_cb s) <> Some (t_known s)}) by (repeat decide equality).
  destruct D as [E | E]; [destruct (display_same c s E) as (_ & _ & ->); rewrite Hs; reflexivity|].
  destruct (display_new c s E) as (_ & _ & ->). rewrite evaluate_boost, Hs. destruct Hk as [-> | ->].
  - destruct (boost <=? v); [reflexivity|]. cbn. rewrite Ha. reflexivity.
  - rewrite Z.leb_refl. reflexivity.
Qed.
Lemma quiet_display v n s : auto = true -> single s -> quiet v n s -> quiet v n (display c s).
Proof.
  intros Ha Hs [Q1 Q2 Q3 Q4 Q5 Q6]. destruct (display_frame c s) as (Fk & Fv & Fw & Fc).
  split; unfold switched in *; rewrite ?Fk, ?Fv, ?Fw, ?Fc; auto. apply off_kept; auto.
Qed.
Lemma last_cons {A} (l : list A) (x d : A) : last (x :: l) d = last l x.
Proof. revert x d. induction l as [|y l IH]; intros x d; [reflexivity|]. change (last (x :: y :: l) d) with (last (y :: l) d). rewrite (IH y d), (IH y x). reflexivity. Qed.
Lemma last_map_app (l : list Z) (x : Z) d : last (map Some (l ++ [x])) d = Some x.
Proof. rewrite map_app. cbn. apply last_last. Qed.
Lemma quiet_press v n s o : auto = true -> (exists t, o = BPush t \/ o = BRelease t) -> single s -> quiet v n s -> quiet v n (press c s o).
Proof.
  intros Ha Ho Hs Q. pose proof Q as [Q1 Q2 Q3 Q4 Q5 Q6]. destruct (press_cases s o Ho) as (b & Hm & [(Hb & ->) | [(x & Hb & ->) | (H1 & ->)]]).
  - split; assumption.
  - assert (Hs' : single (settled s b)) by exact Hs. destruct (command _ x Hs') as (V & W & K & C & O & Cu & Of & B).
    apply quiet_display; [exact Ha | exact (single_same _ _ Of Hs) |].
    assert (T : told (settled s b) x = state_of v (Some x)) by (unfold told; change (off_val (settled s b)) with (off_val s); rewrite Q1; destruct x; reflexivity).
    split.
    + rewrite (off_same _ _ Of). exact Q1.
    + rewrite V, T, (switched_app n s _ x Q3); [reflexivity | exact C].
    + rewrite C, app_length. cbn. change (t_cmds (settled s b)) with (t_cmds s). lia.
    + rewrite W, T. apply Forall_app. split; [exact Q4|]. constructor; [destruct x; cbn; auto | constructor].
    + rewrite K. exact Q5.
    + rewrite W, V. apply last_map_app.
  - apply quiet_display; [exact Ha | exact Hs | split; assumption].
Qed.
Lemma quiet_step v n m s o : auto = true -> (forall u, o <> Rig u) -> good m s -> quiet v n s -> quiet v n (step c s o).
Proof.
  intros Ha Hr G Q. pose proof Q as [Q1 Q2 Q3 Q4 Q5 Q6]. pose proof (g_single _ _ G) as Hs. destruct o; cbn [step].
  - apply quiet_press; eauto.
  - apply quiet_press; eauto.
  - split; cbn; try assumption; [|apply last_map_app]. apply Forall_app. split; [exact Q4|]. constructor; [|constructor].
    rewrite Q2. unfold state_of. destruct (switched n s) as [[]|]; auto.
  - destruct (t_wire s) as [|u w] eqn:E; [exact Q|]. inversion Q4 as [|? ? U1 U2]; subst. apply quiet_display; [exact Ha | exact Hs |]. split; cbn; try assumption.
    + destruct U1; subst; auto.
    + cbn [map] in Q6. rewrite last_cons in Q6. exact Q6.
  - apply quiet_display; [exact Ha | exact Hs | split; assumption].
  - destruct (Hr v0 eq_refl).
Qed.
Lemma quiet_run v n m h : auto = true -> undisturbed h -> forall s, good m s -> quiet v n s -> quiet v n (run c s h).
Proof.
  intros Ha. unfold undisturbed. induction h as [|o h IH]; intros Hu s G Q; [exact Q|]. cbn [run fold_left]. apply IH.
  - intros u Hi. apply (Hu u). right; exact Hi.
  - apply good_step, G.
  - apply (quiet_step v n m); auto. intros u ->. apply (Hu u). left; reflexivity.
Qed.
End Boost.

Lemma no_longer (l : list bool) y : l = l ++ [y] -> False.
Proof. intros H. apply (f_equal (@List.length bool)) in H. rewrite app_length in H. cbn in H. lia. Qed.
Lemma fixed_press boost m s o x : good boost false m s -> (exists t, o = BPush t \/ o = BRelease t) ->
  t_cmds (press (boost_cfg boost false) s o) = t_cmds s ++ [x] -> t_vol (press (boost_cfg boost false) s o) = if x then boost else 8191.
Proof.
  intros G Ho. destruct (press_cases boost false s o Ho) as (b & Hm & [(Hb & ->) | [(y & Hb & ->) | (H1 & ->)]]).
  - intros H. destruct (no_longer _ _ H).
  - destruct (command boost false (settled s b) y (g_single _ _ _ _ G)) as (V & W & K & C & _). intros H.
    destruct (display_frame (boost_cfg boost false) (action (boost_cfg boost false) (settled s b) (Command y))) as (_ & Fv & _ & Fc). rewrite Fc, C in H. apply app_inv_head in H. injection H as <-.
    rewrite Fv, V. unfold told. change (off_val (settled s b)) with (off_val s). rewrite (g_fix _ _ _ _ G eq_refl). reflexivity.
  - destruct (display_frame (boost_cfg boost false) (settled s b)) as (_ & _ & _ & Fc). intros H. rewrite Fc in H. destruct (no_longer _ _ H).
Qed.
Lemma fixed_step boost m s o x : good boost false m s ->
  t_cmds (step (boost_cfg boost false) s o) = t_cmds s ++ [x] -> t_vol (step (boost_cfg boost false) s o) = if x then boost else 8191.
Proof.
  intros G. destruct o; cbn [step].
  - apply (fixed_press boost m); eauto.
  - apply (fixed_press boost m); eauto.
  - intros H. destruct (no_longer _ _ H).
  - destruct (t_wire s) as [|z l]; [intros H; destruct (no_longer _ _ H)|].
    destruct (display_frame (boost_cfg boost false) (mkSys (t_btn s) (t_cb s) (Some z) (t_vol s) l (t_cmds s))) as (_ & _ & _ & Fc). intros H. rewrite Fc in H. destruct (no_longer _ _ H).
  - destruct (display_frame (boost_cfg boost false) (cb (boost_cfg boost false) s Renew)) as (_ & _ & _ & Fc). intros H. rewrite Fc in H. destruct (no_longer _ _ H).
  - intros H. destruct (no_longer _ _ H).
Qed.

(* C98: when PySwitch knows the volume v of the rig and v is below the boost, then from there on, as long as nobody else touches the volume - whatever the mode of the switch, however it is
   pushed and released, and however late answers arrive - the volume is the boost when the user has switched it on last, and else exactly v. *)
Theorem C98_boost_partial : forall m hold v0 boost h ops v,
  let c := boost_cfg boost true in let s := run c (start m hold v0 c) h in
  up_to_date s v -> v < boost -> undisturbed ops ->
  let s' := run c s ops in
  t_vol s' = match switched (List.length (t_cmds s)) s' with Some true => boost | _ => v end /\ (t_wire s' = [] -> t_known s' = Some (t_vol s')).
Proof.
  intros m hold v0 boost h ops v c s (K & W & V) Hl Hu s'.
  destruct (good_run boost true m h _ (good_start boost true m hold v0)) as [G _]. fold c in G. fold s in G.
  assert (Q : quiet boost v (List.length (t_cmds s)) s).
  { split; auto.
    - exact (g_off _ _ _ _ G v K Hl eq_refl).
    - unfold switched. rewrite skipn_all. cbn. exact V.
    - rewrite W. constructor.
    - rewrite W, K, V. reflexivity. }
  pose proof (quiet_run boost true v _ m ops eq_refl Hu s G Q) as [Q1 Q2 Q3 Q4 Q5 Q6]. fold c in Q1, Q2, Q3, Q4, Q5, Q6. fold s' in Q1, Q2, Q3, Q4, Q5, Q6.
  split; [exact Q2|]. intros E. rewrite E in Q6. exact Q6.
Qed.

(* C98: as soon as PySwitch knows the volume of the rig, the boost is shown as active exactly when the volume reaches it - in every history, also when rigs and volumes are changed on the Kemper -
   if a volume below the boost has been seen before (or the former volume is not to be remembered and the boost is above 0 dB) *)
Theorem C98_shown_partial : forall m hold v0 boost auto h v, m <> ONE_SHOT ->
  let c := boost_cfg boost auto in let s0 := start m hold v0 c in
  (if auto then exists h1 h2 u, h = h1 ++ h2 /\ t_known (run c s0 h1) = Some u /\ u < boost else 8191 < boost) ->
  up_to_date (run c s0 h) v -> (lit (run c s0 h) = true <-> boost <= v).
Proof.
  intros m hold v0 boost auto h v Hm c s0 Hc (K & W & V).
  destruct (good_run boost auto m h _ (good_start boost auto m hold v0)) as [G _]. fold c in G. fold s0 in G.
  assert (N : off_val (run c s0 h) <> None).
  { destruct auto; [|rewrite (g_fix _ _ _ _ G eq_refl); discriminate].
    destruct Hc as (h1 & h2 & u & -> & Ku & Lu). destruct (good_run boost true m h1 _ (good_start boost true m hold v0)) as [G1 _]. fold c in G1. fold s0 in G1.
    unfold run. rewrite fold_left_app. apply (good_run boost true m h2 _ G1). change (off_val (run c s0 h1) <> None). rewrite (g_off _ _ _ _ G1 u Ku Lu eq_refl). discriminate. }
  unfold lit. rewrite (g_on _ _ _ _ G Hm); auto.
  - rewrite K. unfold boost_cfg; cbn. apply Z.leb_le.
  - intros ->. exact Hc.
  - destruct (g_cur _ _ _ _ G) as [E | [_ E]]; [exact E | congruence].
  - rewrite W. constructor.
Qed.

(* C98: without remembering, each command sets the boost resp. 0 dB *)
Theorem C98_fixed : forall m hold v0 boost h o x,
  let c := boost_cfg boost false in let s := run c (start m hold v0 c) h in
  t_cmds (step c s o) = t_cmds s ++ [x] -> t_vol (step c s o) = if x then boost else 8191.
Proof.
  intros m hold v0 boost h o x. cbv zeta. destruct (good_run boost false m h _ (good_start boost false m hold v0)) as [G _]. revert G.
  generalize (run (boost_cfg boost false) (start m hold v0 (boost_cfg boost false)) h). intros s G. exact (fixed_step boost m s o x G).
Qed.

(* C98 refuted: a rig which is as loud as the boost is shown as boosted, and switching the boost off there sets the volume of another rig *)
Theorem C98_loud_refuted : exists boost h v,
  let c := boost_cfg boost true in let s := run c (start LATCH 600 5000 c) h in
  up_to_date s v /\ boost <= v /\ t_cmds s = [] /\ lit s = true /\ t_vol (step c s (Push 0)) = 5000 /\ v <> 5000.
Proof.
  exists 10000, [Enable; Ask; Receive; Rig 12000; Ask; Receive], 12000. cbn. split; [split; [reflexivity | split; reflexivity]|].
  split; [lia|]. split; [reflexivity|]. split; [reflexivity|]. split; [reflexivity | lia].
Qed.
(* ... and if no lower volume has ever been seen, it is shown as switched off, with the volume unchanged *)
Theorem C98_unseen_refuted : exists boost h v,
  let c := boost_cfg boost true in let s := run c (start LATCH 600 12000 c) h in
  up_to_date s v /\ boost <= v /\ lit s = false.
Proof.
  exists 10000, [Enable; Ask; Receive; Push 0; Receive], 12000. cbn. split; [split; [reflexivity | split; reflexivity]|]. split; [lia | reflexivity].
Qed.
(* ... and when a rig is changed while boosted and the switch is used before the new volume is known, the new rig gets the volume of the old one *)
Theorem C98_rig_refuted : exists boost h u,
  let c := boost_cfg boost true in let s := run c (start LATCH 600 5000 c) h in
  t_vol s = u /\ t_vol (step c s (Push 0)) = 5000 /\ u <> 5000.
Proof. exists 10000, [Enable; Ask; Receive; Push 0; Receive; Rig 7000], 7000. cbn. split; [reflexivity|]. split; [reflexivity | lia]. Qed.

(* A rig is boosted twice, answers arriving late *)
Example ex_boost :
  let c := boost_cfg 10000 true in let s := run c (start HOLD_MOMENTARY 600 3000 c) [Enable; Ask; Receive; Push 0; Receive; Rig 5000; Ask; Receive] in
  let on := [Push 0; Release 100] in let h := on ++ [Ask; Receive; Ask] ++ [Push 5000; Release 5100] ++ [Receive; Receive; Receive] in
  up_to_date s 5000 /\ 5000 < 10000 /\ undisturbed (on ++ h) /\ lit s = false /\
  t_vol (run c s on) = 10000 /\ lit (run c s on) = true /\ t_vol (run c s h) = 5000 /\ lit (run c s h) = false /\
  t_cmds (run c s h) = t_cmds s ++ [true; false] /\ t_vol (run c s [Push 0; Release 700]) = 5000.
Proof.
  cbv zeta. split; [split; [|split]; vm_compute; reflexivity|]. split; [lia|]. split; [intros v; cbn [app In]; intuition discriminate|].
  split; [vm_compute; reflexivity|]. split; [vm_compute; reflexivity|]. split; [vm_compute; reflexivity|]. split; [vm_compute; reflexivity|]. split; [vm_compute; reflexivity|].
  split; vm_compute; reflexivity.
Qed.
Example ex_boost_fixed : let c := boost_cfg 10000 false in let s := run c (start LATCH 600 3000 c) [Enable] in
  t_cmds (run c s [Push 0; Push 1]) = [true; false] /\ t_vol (run c s [Push 0]) = 10000 /\ t_vol (run c s [Push 0; Receive; Push 1]) = 8191.
Proof. cbv zeta. split; [vm_compute; reflexivity|]. split; vm_compute; reflexivity. Qed.

Print Assumptions C98_boost_partial.
Print Assumptions C98_shown_partial.
Print Assumptions C98_fixed.
Print Assumptions C98_loud_refuted.
Print Assumptions C98_unseen_refuted.
Print Assumptions C98_rig_refuted.
