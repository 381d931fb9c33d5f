From Verif.Lib Require Import Base.
From Verif.Model Require Import Analog Tempo.
From Verif.Spec Require Import Tempo.

Lemma oeqb_spec a b : oeqb a b = true <-> a = b.
Proof. destruct a, b; cbn; rewrite ?Z.eqb_eq; split; intros H; try congruence; try discriminate H. Qed.
Lemma oeqb_refl a : oeqb a a = true.
Proof. apply oeqb_spec. reflexivity. Qed.
Lemma value_snoc p ops o : value p (ops ++ [o]) = match o with TVal q w => if same_param p q then w else value p ops | TDraw => value p ops end.
Proof. unfold value. rewrite fold_left_app. reflexivity. Qed.

Definition of_vals (v : tvals) (p : tparam) : option Z := match p with PPulse => tv_pulse v | PTuner => tv_tuner v | PBpm => tv_bpm v | PRig => tv_rig v end.
Lemma of_set v p w q : of_vals (tv_set v p w) q = if same_param q p then w else of_vals v q.
Proof. destruct p, q; reflexivity. Qed.
Lemma draw_vals c s : t_vals (fst (t_draw c s)) = t_vals s.
Proof. unfold t_draw. destruct (oeqb (tv_tuner (t_vals s)) (Some 1)); reflexivity. Qed.
Lemma vals c ops : forall p, of_vals (t_vals (fst (run (tstep c) t_init ops))) p = value p ops.
Proof.
  induction ops as [|ops o IH] using rev_ind_snoc; intros p; [destruct p; reflexivity|]. rewrite value_snoc, run_snoc. destruct (run (tstep c) t_init ops) as [s ev]. cbn [fst snd] in *.
  destruct o as [q w|]; cbn [tstep].
  - cbn [fst]. rewrite <- IH. apply of_set.
  - destruct (t_draw c s) as [s' e] eqn:E. cbn [fst]. assert (H := draw_vals c s). rewrite E in H. cbn in H. rewrite H. apply IH.
Qed.

Lemma led_app ev e : led_now (ev ++ e) = match led_now e with Some b => Some b | None => led_now ev end.
Proof.
  unfold led_now. rewrite fold_left_app. generalize (fold_left (fun l e => match e with TLed b => Some b | _ => l end) ev None) as x.
  induction e as [|a e IH] using rev_ind; intros x; [reflexivity|]. rewrite !fold_left_app. cbn. rewrite (IH x). destruct a; reflexivity.
Qed.
Lemma text_app ev e : text_now (ev ++ e) = match text_now e with Some b => Some b | None => text_now ev end.
Proof.
  unfold text_now. rewrite fold_left_app. generalize (fold_left (fun l e => match e with TText b => Some b | _ => l end) ev None) as x.
  induction e as [|a e IH] using rev_ind; intros x; [reflexivity|]. rewrite !fold_left_app. cbn. rewrite (IH x). destruct a; reflexivity.
Qed.
Lemma previews_app a b : previews (a ++ b) = previews a ++ previews b.
Proof. apply flat_map_app. Qed.

(* one draw *)
Lemma draw_tuner c s : tv_tuner (t_vals s) = Some 1 -> t_draw c s = (s, []).
Proof. intros H. unfold t_draw. rewrite H. reflexivity. Qed.
Definition led_new (s : tstate) : bool := match tv_pulse (t_vals s) with Some x => negb (oeqb (Some x) (t_cur s)) | None => false end.
Definition bpm_new (c : tcfg) (s : tstate) : bool :=
  (tc_display c || tc_change c) && match tv_bpm (t_vals s) with Some b => negb (oeqb (Some b) (t_bpm s)) | None => false end.
Lemma draw_else c s : tv_tuner (t_vals s) <> Some 1 -> exists e,
  t_draw c s = (mkTs (t_vals s) (if led_new s then tv_pulse (t_vals s) else t_cur s) (if bpm_new c s then tv_bpm (t_vals s) else t_bpm s)
                  (if bpm_new c s && tc_change c then tv_rig (t_vals s) else t_rig s), e) /\
  led_now e = (if led_new s then option_map (fun v => 0 <? v) (tv_pulse (t_vals s)) else None) /\
  (tc_display c = true -> (forall b, tc_text c b = true) -> text_now e = if bpm_new c s then option_map convert_bpm (tv_bpm (t_vals s)) else None) /\
  previews e = (if bpm_new c s && tc_change c && negb (oeqb (t_bpm s) None) && oeqb (tv_rig (t_vals s)) (t_rig s)
                then match tv_bpm (t_vals s) with Some b => [convert_bpm b] | None => [] end else []) /\
  (led_new s = false -> bpm_new c s = false -> e = if tc_display c then [TBack] else []).
Proof.
  intros H. unfold t_draw. destruct (oeqb (tv_tuner (t_vals s)) (Some 1)) eqn:E; [apply oeqb_spec in E; contradiction|]. clear E. fold (led_new s).
  replace (if tc_display c || tc_change c then match tv_bpm (t_vals s) with Some b => negb (oeqb (Some b) (t_bpm s)) | None => false end else false) with (bpm_new c s) by (unfold bpm_new; destruct (tc_display c || tc_change c); reflexivity).
  cbv zeta. eexists. split; [reflexivity|]. rewrite !led_app, !text_app, !previews_app.
  destruct (led_new s) eqn:El, (bpm_new c s) eqn:Eb; unfold led_new in El; unfold bpm_new in Eb.
  all: try (destruct (tv_pulse (t_vals s)) as [x|]; [|discriminate El]).
  all: try (destruct (tv_bpm (t_vals s)) as [b|]; [|rewrite andb_false_r in Eb; discriminate Eb]).
  all: cbn [andb]; try destruct (tc_change c && negb (oeqb (t_bpm s) None) && oeqb (tv_rig (t_vals s)) (t_rig s)).
  all: destruct (tc_display c); try destruct (tc_text c _) eqn:Et; cbn; repeat split; intros; try reflexivity; try discriminate; try congruence.
Qed.

Record tinv (c : tcfg) (s : tstate) (ev : list tev) : Prop := {
  i_led : led_now ev = option_map (fun v => 0 <? v) (t_cur s);
  i_text : tc_display c = true -> (forall b, tc_text c b = true) -> text_now ev = option_map convert_bpm (t_bpm s) }.
Lemma tinv_all c ops : tinv c (fst (run (tstep c) t_init ops)) (snd (run (tstep c) t_init ops)).
Proof.
  induction ops as [|ops o [IL IT]] using rev_ind_snoc; [split; reflexivity|]. rewrite run_snoc. destruct (run (tstep c) t_init ops) as [s ev]. cbn [fst snd] in *.
  destruct o as [q w|]; cbn [tstep].
  - cbn [fst snd]. rewrite app_nil_r. split; assumption.
  - destruct (oeqb (tv_tuner (t_vals s)) (Some 1)) eqn:Et.
    + apply oeqb_spec in Et. rewrite (draw_tuner c s Et). cbn [fst snd]. rewrite app_nil_r. split; assumption.
    + destruct (draw_else c s) as (e & -> & H1 & H2 & _). { intros H. rewrite H in Et. discriminate Et. }
      cbn [fst snd]. split; cbn [t_cur t_bpm].
      * rewrite led_app, H1. destruct (led_new s) eqn:El; [|exact IL]. unfold led_new in El. destruct (tv_pulse (t_vals s)); [reflexivity|discriminate El].
      * intros Hd Ht. rewrite text_app, H2 by assumption. destruct (bpm_new c s) eqn:Eb; [|exact (IT Hd Ht)]. unfold bpm_new in Eb.
        destruct (tv_bpm (t_vals s)); [reflexivity|]. rewrite andb_false_r in Eb. discriminate Eb.
Qed.

Lemma led_shows c ops v : value PTuner ops <> Some 1 -> value PPulse ops = Some v ->
  led_now (snd (run (tstep c) t_init (ops ++ [TDraw]))) = Some (0 <? v).
Proof.
  intros Ht Hv. rewrite (i_led _ _ _ (tinv_all c (ops ++ [TDraw]))). rewrite run_snoc. assert (G := vals c ops). destruct (run (tstep c) t_init ops) as [s ev]. cbn [fst snd tstep] in *.
  destruct (draw_else c s) as (e & -> & _). { rewrite <- (G PTuner) in Ht. exact Ht. } cbn [fst t_cur]. assert (E := G PPulse). cbn in E. rewrite Hv in E. unfold led_new. rewrite E.
  destruct (negb (oeqb (Some v) (t_cur s))) eqn:En; [reflexivity|]. apply negb_false_iff, oeqb_spec in En. rewrite <- En. reflexivity.
Qed.
Lemma text_shows c ops v : tc_display c = true -> (forall b, tc_text c b = true) -> value PTuner ops <> Some 1 -> value PBpm ops = Some v ->
  text_now (snd (run (tstep c) t_init (ops ++ [TDraw]))) = Some (convert_bpm v).
Proof.
  intros Hd Htx Ht Hv. rewrite (i_text _ _ _ (tinv_all c (ops ++ [TDraw])) Hd Htx). rewrite run_snoc. assert (G := vals c ops). destruct (run (tstep c) t_init ops) as [s ev]. cbn [fst snd tstep] in *.
  destruct (draw_else c s) as (e & -> & _). { rewrite <- (G PTuner) in Ht. exact Ht. } cbn [fst t_bpm]. assert (E := G PBpm). cbn in E. rewrite Hv in E. unfold bpm_new. rewrite E, Hd. cbn [orb andb].
  destruct (negb (oeqb (Some v) (t_bpm s))) eqn:En; [reflexivity|]. apply negb_false_iff, oeqb_spec in En. rewrite <- En. reflexivity.
Qed.
Lemma tuner_silent c ops : value PTuner ops = Some 1 -> tstep c (fst (run (tstep c) t_init ops)) TDraw = (fst (run (tstep c) t_init ops), []).
Proof. intros H. apply draw_tuner. rewrite <- H. exact (vals c ops PTuner). Qed.
Lemma draw_again c ops : snd (tstep c (fst (run (tstep c) t_init (ops ++ [TDraw]))) TDraw) = if tc_display c then (match value PTuner ops with Some 1 => [] | _ => [TBack] end) else [].
Proof.
  rewrite run_snoc. assert (G := vals c ops). destruct (run (tstep c) t_init ops) as [s ev]. cbn [fst snd tstep] in *. assert (Et := G PTuner). cbn in Et. rewrite <- Et.
  destruct (oeqb (tv_tuner (t_vals s)) (Some 1)) eqn:E.
  - apply oeqb_spec in E. rewrite (draw_tuner c s E). cbn [fst]. rewrite (draw_tuner c s E), E. destruct (tc_display c); reflexivity.
  - assert (Hn : tv_tuner (t_vals s) <> Some 1) by (intros H; rewrite H in E; discriminate E).
    destruct (draw_else c s Hn) as (e & -> & _). cbn [fst]. set (s1 := mkTs _ _ _ _). destruct (draw_else c s1 Hn) as (e1 & -> & _ & _ & _ & H). cbn [snd]. rewrite H.
    + destruct (tc_display c); [|reflexivity]. destruct (tv_tuner (t_vals s)) as [[|[]|]|]; try reflexivity. congruence.
    + unfold s1, led_new. cbn [t_vals t_cur]. destruct (tv_pulse (t_vals s)) as [x|]; [|reflexivity]. destruct (negb (oeqb (Some x) (t_cur s))) eqn:Ex; [rewrite oeqb_refl; reflexivity|exact Ex].
    + unfold s1, bpm_new. cbn [t_vals t_bpm]. destruct (tc_display c || tc_change c) eqn:Ed; [|reflexivity]. cbn [andb].
      destruct (tv_bpm (t_vals s)) as [x|]; [|reflexivity]. destruct (negb (oeqb (Some x) (t_bpm s))) eqn:Ex; [rewrite oeqb_refl; reflexivity|exact Ex].
Qed.

(* previews *)
Lemma sights_snoc ops : forall before o, sights before (ops ++ [o]) = sights before ops ++ sights (before ++ ops) [o].
Proof.
  induction ops as [|a ops IH]; intros before o.
  - rewrite app_nil_r. reflexivity.
  - cbn [app sights]. destruct a as [p v|]; rewrite IH, <- app_assoc; [reflexivity|rewrite <- app_assoc; reflexivity].
Qed.
Fixpoint last_tempo (last : option Z) (l : list (Z * option Z)) : option Z :=
  match l with [] => last | (b, _) :: l' => last_tempo (Some b) l' end.
Lemma new_snoc l : forall last x, new_tempos last (l ++ [x]) = new_tempos last l ++ (if match last_tempo last l with Some y => y =? fst x | None => false end then [] else [x]).
Proof.
  induction l as [|[b r] l IH]; intros last [b' r']; cbn [app new_tempos last_tempo fst].
  - destruct last; [destruct (z =? b')|]; reflexivity.
  - destruct last as [y|]; [destruct (Z.eqb_spec y b) as [->|]|]; rewrite IH; reflexivity.
Qed.
Lemma followers_snoc l x : followers (l ++ [x]) = followers l ++ match rev l with (_, r) :: _ => if same_rig r (snd x) then [fst x] else [] | [] => [] end.
Proof.
  induction l as [|[b r] l IH]; [destruct x; reflexivity|]. destruct l as [|[b' r'] l].
  - destruct x as [b2 r2]. cbn. rewrite app_nil_r. reflexivity.
  - change ((((b, r) :: (b', r') :: l) ++ [x])) with ((b, r) :: ((b', r') :: (l ++ [x]))).
    change (followers ((b, r) :: (b', r') :: l ++ [x])) with ((if same_rig r r' then [b'] else []) ++ followers (((b', r') :: l) ++ [x])).
    change (followers ((b, r) :: (b', r') :: l)) with ((if same_rig r r' then [b'] else []) ++ followers ((b', r') :: l)). rewrite IH, app_assoc. f_equal.
    change (rev ((b, r) :: (b', r') :: l)) with (rev ((b', r') :: l) ++ [(b, r)]). destruct (rev ((b', r') :: l)) eqn:E; [|reflexivity].
    apply (f_equal (@rev (Z * option Z))) in E. rewrite rev_involutive in E. discriminate E.
Qed.
Lemma last_new l : forall last, last_tempo last (new_tempos last l) = last_tempo last l.
Proof.
  induction l as [|[b r] l IH]; intros last; [reflexivity|]. cbn [new_tempos last_tempo]. destruct last as [y|]; [destruct (Z.eqb_spec y b) as [->|]|]; cbn [last_tempo]; apply IH.
Qed.
Lemma last_tempo_rev l : forall last, last_tempo last l = match rev l with (b, _) :: _ => Some b | [] => last end.
Proof.
  induction l as [|[b r] l IH]; intros last; [reflexivity|]. cbn [last_tempo rev]. rewrite IH. destruct (rev l) as [|[]]; reflexivity.
Qed.
Lemma same_rig_oeqb a b : same_rig a b = oeqb b a.
Proof. destruct a, b; cbn; try reflexivity. apply Z.eqb_sym. Qed.
Lemma previews_all c ops : tc_change c = true -> let s := fst (run (tstep c) t_init ops) in let l := new_tempos None (sights [] ops) in
  previews (snd (run (tstep c) t_init ops)) = map convert_bpm (followers l) /\
  t_bpm s = last_tempo None l /\ t_rig s = match rev l with (_, r) :: _ => r | [] => None end.
Proof.
  intros Hc. cbv zeta. induction ops as [|ops o (I1 & I2 & I3)] using rev_ind_snoc; [repeat split|]. rewrite run_snoc, sights_snoc. assert (G := vals c ops).
  destruct (run (tstep c) t_init ops) as [s ev]. cbn [fst snd] in *. set (L := sights [] ops) in *. destruct o as [p v|]; cbn [tstep sights app].
  - cbn [fst snd t_bpm t_rig]. rewrite !app_nil_r. auto.
  - rewrite app_nil_r. rewrite <- (G PTuner), <- (G PBpm), <- (G PRig). cbn [of_vals]. destruct (oeqb (tv_tuner (t_vals s)) (Some 1)) eqn:E.
    + apply oeqb_spec in E. rewrite (draw_tuner c s E), E. cbn [fst snd]. rewrite !app_nil_r. auto.
    + assert (Hn : tv_tuner (t_vals s) <> Some 1) by (intros H; rewrite H in E; discriminate E).
      destruct (draw_else c s Hn) as (e & -> & _ & _ & H3 & _). cbn [fst snd t_bpm t_rig].
      assert (Es : match tv_tuner (t_vals s), tv_bpm (t_vals s) with Some 1, _ | _, None => [] | _, Some b => [(b, tv_rig (t_vals s))] end
                 = match tv_bpm (t_vals s) with Some b => [(b, tv_rig (t_vals s))] | None => [] end).
      { destruct (tv_tuner (t_vals s)) as [[|[]|]|], (tv_bpm (t_vals s)); try reflexivity; congruence. }
      rewrite Es. clear Es. rewrite previews_app, H3, I1. unfold bpm_new. rewrite Hc, orb_true_r. cbn [andb]. rewrite !andb_true_r. destruct (tv_bpm (t_vals s)) as [b|] eqn:Eb.
      2:{ rewrite !app_nil_r. auto. }
      rewrite new_snoc. cbn [fst]. rewrite <- last_new, <- I2. destruct (t_bpm s) as [y|] eqn:Ey.
      * cbn [oeqb]. rewrite (Z.eqb_sym b y). destruct (y =? b) eqn:Eyb; cbn [negb andb].
        -- rewrite !app_nil_r. auto.
        -- rewrite !last_tempo_rev, rev_app_distr. cbn [rev app snd fst]. rewrite followers_snoc, map_app. cbn [snd fst]. split; [|split; reflexivity]. f_equal.
           rewrite last_tempo_rev in I2. destruct (rev (new_tempos None L)) as [|[b0 r0] t]; [discriminate I2|]. rewrite I3. assert (Er := same_rig_oeqb r0 (tv_rig (t_vals s))). destruct (same_rig r0 (tv_rig (t_vals s))); rewrite <- Er; reflexivity.
      * cbn [oeqb negb andb]. rewrite !last_tempo_rev, rev_app_distr. cbn [rev app snd fst]. rewrite followers_snoc, map_app, app_nil_r. split; [|split; reflexivity].
        rewrite last_tempo_rev in I2. destruct (rev (new_tempos None L)) as [|[b0 r0] t]; [|discriminate I2]. rewrite app_nil_r. reflexivity.
Qed.
Lemma no_previews c ops : tc_change c = false -> previews (snd (run (tstep c) t_init ops)) = [].
Proof.
  intros Hc. induction ops as [|ops o IH] using rev_ind_snoc; [reflexivity|]. rewrite run_snoc. destruct (run (tstep c) t_init ops) as [s ev]. cbn [fst snd] in *.
  destruct o as [p v|]; cbn [tstep]; [cbn [snd]; rewrite app_nil_r; exact IH|]. destruct (oeqb (tv_tuner (t_vals s)) (Some 1)) eqn:E.
  - apply oeqb_spec in E. rewrite (draw_tuner c s E). cbn [snd]. rewrite app_nil_r. exact IH.
  - destruct (draw_else c s) as (e & -> & _ & _ & H3 & _). { intros H. rewrite H in E. discriminate E. } cbn [snd]. rewrite previews_app, IH, H3, Hc, andb_false_r. reflexivity.
Qed.

(* the nearest number *)
Lemma nearest v : 2 * Z.abs (64 * convert_bpm v - v) <= 64 /\ (2 * Z.abs (64 * convert_bpm v - v) = 64 -> Z.even (convert_bpm v) = true).
Proof.
  unfold convert_bpm, round_half_even. assert (H1 := Z.div_mod v 64). assert (H2 := Z.mod_pos_bound v 64). set (q := v / 64) in *. set (r := v mod 64) in *. cbv zeta.
  destruct (Z.ltb_spec (2 * r) 64); [split; [lia|intros; lia]|]. destruct (Z.ltb_spec 64 (2 * r)); [split; [lia|intros; lia]|].
  destruct (Z.even q) eqn:E; [split; [lia|intros; exact E]|]. split; [lia|]. intros _. rewrite Z.even_add, E. reflexivity.
Qed.
Lemma no_empty_text c ops : Forall (fun e => match e with TText b => tc_text c b = true | _ => True end) (snd (run (tstep c) t_init ops)).
Proof.
  induction ops as [|ops o IH] using rev_ind_snoc; [constructor|]. rewrite run_snoc. destruct (run (tstep c) t_init ops) as [s ev]. cbn [fst snd] in *.
  destruct o as [q w|]; cbn [tstep]; [rewrite app_nil_r; exact IH|]. destruct (t_draw c s) as [s' e] eqn:E. cbn [snd]. apply Forall_app. split; [exact IH|].
  unfold t_draw in E. destruct (oeqb (tv_tuner (t_vals s)) (Some 1)); [injection E as <- <-; constructor|]. cbv zeta in E. injection E as <- <-.
  rewrite !Forall_app. repeat match goal with |- _ /\ _ => split end.
  - match goal with |- Forall _ (if ?x then _ else _) => destruct x end; repeat constructor.
  - match goal with |- Forall _ (if ?x then _ else _) => destruct x end; repeat constructor.
  - destruct (tc_display c); [|constructor]. constructor; [exact I|]. match goal with |- Forall _ (if ?x then _ else _) => destruct x eqn:Ex end; [|constructor].
    apply andb_true_iff in Ex. destruct Ex as (_ & Ex). constructor; [exact Ex|constructor].
Qed.
