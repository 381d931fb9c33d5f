From Verif.Lib Require Import Base.
From Verif.Model Require Import Midi Encoder Rig BankEncoder.
From Verif.Spec Require Import Encoder Rig BankEncoder.
From Verif.Proofs Require Import Encoder Rig.

Lemma brun_fst cfg fuel c ops : forall w w' t, brun cfg fuel c w ops = Some (w', t) -> map fst t = ops.
Proof.
  induction ops as [|o ops IH]; intros w w' t H; cbn [brun] in H; [injection H as <- <-; reflexivity|].
  destruct (bstep cfg fuel c w o) as [[w1 e1]|]; [|discriminate]. destruct (brun cfg fuel c w1 ops) as [[w2 t2]|] eqn:E; [|discriminate].
  injection H as <- <-. cbn. f_equal. eauto.
Qed.
Lemma brun_app cfg fuel c o1 : forall o2 w w' t, brun cfg fuel c w (o1 ++ o2) = Some (w', t) <->
  exists w1 t1 t2, brun cfg fuel c w o1 = Some (w1, t1) /\ brun cfg fuel c w1 o2 = Some (w', t2) /\ t = t1 ++ t2.
Proof.
  induction o1 as [|o o1 IH]; intros o2 w w' t; cbn [app brun].
  - split; [intros H; eexists _, _, _; eauto|intros (w1 & t1 & t2 & H1 & H2 & ->); injection H1 as <- <-; exact H2].
  - destruct (bstep cfg fuel c w o) as [[wa ea]|].
    + split.
      * intros H. destruct (brun cfg fuel c wa (o1 ++ o2)) as [[w2 t']|] eqn:E; [|discriminate]. injection H as <- <-.
        apply IH in E. destruct E as (w1 & t1 & t2 & H1 & H2 & ->). rewrite H1. eexists _, _, _. split; [reflexivity|]. split; [exact H2|]. reflexivity.
      * intros (w1 & t1 & t2 & H1 & H2 & ->). destruct (brun cfg fuel c wa o1) as [[w2 t']|] eqn:E; [|discriminate]. injection H1 as <- <-.
        assert (X : brun cfg fuel c wa (o1 ++ o2) = Some (w', t' ++ t2)) by (apply IH; eauto 8). rewrite X. reflexivity.
    + split; [discriminate|intros (w1 & t1 & t2 & H1 & _); discriminate].
Qed.
Lemma happened_app cfg fuel c t1 t2 w : happened cfg fuel c (t1 ++ t2) w ->
  exists w1, happened cfg fuel c t1 w1 /\ brun cfg fuel c w1 (map fst t2) = Some (w, t2).
Proof.
  unfold happened. rewrite map_app. intros H. apply brun_app in H. destruct H as (w1 & s1 & s2 & H1 & H2 & E).
  pose proof (brun_fst _ _ _ _ _ _ _ H1) as F1. assert (L : length s1 = length t1) by (rewrite <- (map_length fst s1), F1, map_length; reflexivity).
  assert (s1 = t1 /\ s2 = t2) as [-> ->].
  { clear - E L. revert t1 E L. induction s1 as [|a s1 IH]; intros [|b t1] E L; try discriminate; cbn in *; [auto|].
    injection E as -> E. destruct (IH t1 E) as [-> ->]; auto. }
  eauto.
Qed.
Lemma happened_snoc cfg fuel c t o e w : happened cfg fuel c (t ++ [(o, e)]) w ->
  exists w0, happened cfg fuel c t w0 /\ bstep cfg fuel c w0 o = Some (w, e).
Proof.
  intros H. apply happened_app in H. destruct H as (w1 & H1 & H2). exists w1. split; auto. cbn in H2.
  destruct (bstep cfg fuel c w1 o) as [[wa ea]|]; [|discriminate]. injection H2 as <- <-. reflexivity.
Qed.
Lemma happened_step cfg fuel c t w o w' e : happened cfg fuel c t w -> bstep cfg fuel c w o = Some (w', e) -> happened cfg fuel c (t ++ [(o, e)]) w'.
Proof.
  unfold happened. intros H1 H2. rewrite map_app. apply brun_app. exists w, t, [(o, e)]. cbn. rewrite H2. auto.
Qed.
Lemma happened_ind cfg fuel c (P : log -> bworld -> Prop) : P [] (new_bworld cfg) ->
  (forall t w o w' e, happened cfg fuel c t w -> P t w -> bstep cfg fuel c w o = Some (w', e) -> P (t ++ [(o, e)]) w') ->
  forall t w, happened cfg fuel c t w -> P t w.
Proof.
  intros H0 HS t. induction t as [|t [o e] IH] using rev_ind_snoc; intros w H.
  - unfold happened in H. cbn in H. injection H as <-. exact H0.
  - destruct (happened_snoc _ _ _ _ _ _ _ H) as (w0 & A & B). eapply HS; eauto.
Qed.

Lemma last_of_snoc {A B} (f : A -> option B) l x : forall d, last_of f (l ++ [x]) d = match f x with Some y => Some y | None => last_of f l d end.
Proof. induction l as [|a l IH]; intros d; cbn; [destruct (f x); reflexivity|apply IH]. Qed.

(* ---- the encoder's part ---- *)
Section Enc.
Variables (num den : Z) (preview : bool).
Notation c := (bank_encoder num den preview).

Lemma enc_out e : announced e = sets e -> (sets e = [] \/ exists v, sets e = [v]) ->
  flat_map enc_msgs e = map (fun v => (None, bank_select v)) (sets e) /\
  forall sh, fold_left enc_shared e sh = match sets e with v :: _ => mkShared (Some v) (s_morph sh) | [] => sh end.
Proof.
  intros HA HS. split.
  - clear. induction e as [|[v|v|b|v] e IH]; cbn; rewrite ?IH; reflexivity.
  - assert (N : forall e sh, announced e = [] -> fold_left enc_shared e sh = sh).
    { clear. induction e as [|[v|v|b|v] e IH]; intros sh H; cbn in *; auto; try discriminate. }
    destruct HS as [HS|[v HS]]; rewrite HS in HA; rewrite HS; [intros; apply N; exact HA|].
    clear HS. induction e as [|[x|x|b|x] e IH]; intros sh; cbn in *; try discriminate; auto.
    injection HA as -> HA. rewrite N by exact HA. reflexivity.
Qed.

Lemma clamp_range v : 0 <= clamp 0 124 v <= 124.
Proof. unfold clamp. repeat case_if; lia. Qed.

(* One poll *)
Lemma turn_step cfg fuel w p w' e : bstep cfg fuel c w (BTurn p) = Some (w', e) ->
  x_pos (bw_enc w') = scaled c p /\ w_id (bw_sw w') = w_id (bw_sw w) /\ w_st (bw_sw w') = w_st (bw_sw w) /\
  (x_pos (bw_enc w) = -1 \/ x_pos (bw_enc w) = scaled c p -> e = [] /\ bank_value w' = bank_value w /\ x_last (bw_enc w') = x_last (bw_enc w) /\ w_sh (bw_sw w') = w_sh (bw_sw w)) /\
  (x_pos (bw_enc w) <> -1 -> x_pos (bw_enc w) <> scaled c p -> exists id, bank_value w = Some id /\
     let v := nearest 0 124 (Z.quot id 5 + (scaled c p - x_pos (bw_enc w))) in
     x_last (bw_enc w') = Some v /\
     (x_last (bw_enc w) = Some v -> e = [] /\ option_map (fun i => Z.quot i 5) (bank_value w') = Some (Z.quot id 5) /\ w_sh (bw_sw w') = w_sh (bw_sw w)) /\
     (x_last (bw_enc w) <> Some v -> e = [(None, CC 47 v)] /\ option_map (fun i => Z.quot i 5) (bank_value w') = Some v /\
        w_sh (bw_sw w') = mkShared (Some v) (s_morph (w_sh (bw_sw w))))).
Proof.
  cbn [bstep]. destruct (process c (bw_enc w) p) as [[x ev]|] eqn:E; [|discriminate]. intros H. injection H as <- <-. cbn [bw_enc bw_sw w_id w_st w_sh bank_value].
  pose proof (bank_announced c _ _ _ _ eq_refl E) as HA. cbn [e_bank bank_encoder] in HA.
  pose proof (process_pos _ _ _ _ _ E) as HP. destruct (direct_process c _ _ _ _ eq_refl E) as [D1 D2].
  split; [exact HP|]. split; [reflexivity|]. split; [reflexivity|]. split.
  - intros Hq. destruct (D1 Hq) as (-> & V & L). cbn. auto.
  - intros H1 H2. destruct (D2 H1 H2) as (b & Hc & D). cbv zeta in D. cbn [e_min e_max bank_encoder] in D.
    replace (NUM_BANKS - 1) with 124 in D by reflexivity.
    unfold current, get_value in Hc. cbn [e_bank bank_encoder] in Hc. unfold bank_value. destruct (x_val (bw_enc w)) as [id|]; [|discriminate].
    injection Hc as <-. unfold rigs_per_bank in D. exists id. split; [reflexivity|]. cbv zeta. rewrite <- clamp_nearest by lia.
    set (v := clamp 0 124 (Z.quot id 5 + (scaled c p - x_pos (bw_enc w)))) in *. pose proof (clamp_range (Z.quot id 5 + (scaled c p - x_pos (bw_enc w)))) as R. fold v in R.
    destruct D as (D3 & D4).
    assert (G : forall r, get_value c x = Ok (Some r) -> option_map (fun i => Z.quot i 5) (x_val x) = Some r).
    { intros r. unfold get_value. cbn [e_bank bank_encoder]. destruct (x_val x); [|discriminate]. intros F. injection F as F. cbn. rewrite <- F. reflexivity. }
    destruct (opt_eqb (x_last (bw_enc w)) (Some v)) eqn:Eo.
    + assert (Hl : x_last (bw_enc w) = Some v) by (destruct (x_last (bw_enc w)); cbn in Eo; [f_equal; lia|discriminate]).
      destruct (D3 (or_intror Hl)) as (S & Gv & L). split; [exact L|]. split; [intros _|intros F; contradiction].
      destruct (enc_out ev HA (or_introl S)) as (O1 & O2). rewrite O1, S. rewrite O2, S. cbn. auto.
    + assert (Hl : x_last (bw_enc w) <> Some v) by (intros F; rewrite F in Eo; cbn in Eo; lia).
      destruct (D4 ltac:(lia) Hl) as (S & Gv & L). split; [exact L|]. split; [intros F; contradiction|intros _].
      destruct (enc_out ev HA (or_intror (ex_intro _ v S))) as (O1 & O2). rewrite O1, S. rewrite O2, S. cbn. auto.
Qed.

(* A step at a switch *)
Lemma switch_step cfg fuel w k o w' e : at_switch cfg fuel w k o = Some (w', e) -> bw_enc w' = bw_enc w /\ w_id (bw_sw w') = w_id (bw_sw w).
Proof. unfold at_switch. destruct (wstep _ _ _ _) as [[s ev]|]; [|discriminate]. intros H. injection H as <- <-. auto. Qed.

Lemma bswitch_step cfg fuel w o w' e : bstep cfg fuel c w (BSwitch o) = Some (w', e) ->
  x_pos (bw_enc w') = x_pos (bw_enc w) /\ x_last (bw_enc w') = x_last (bw_enc w) /\
  bank_value w' = (match o with Report id => id | _ => bank_value w end) /\ w_id (bw_sw w') = (match o with Report id => id | _ => w_id (bw_sw w) end).
Proof.
  cbn [bstep]. destruct o as [k|k|k|id]; intros H.
  1-3: apply switch_step in H; unfold bank_value; destruct H as [-> ->]; auto.
  injection H as <- <-. auto.
Qed.

Lemma enc_sent_switch o e : enc_sent (BSwitch o, e) = None. Proof. reflexivity. Qed.

(* What the log says about the encoder *)
Definition enc_inv (t : log) (w : bworld) : Prop :=
  x_pos (bw_enc w) = match last_position t with Some p => scaled c p | None => -1 end /\
  x_last (bw_enc w) = Some (match last_bank_sent t with Some b => b | None => -1 end) /\
  (log_valid t -> option_map (fun i => Z.quot i 5) (bank_value w) = counts_from t) /\
  (forall b, last_bank_sent t = Some b -> 0 <= b <= 124).

Lemma nearest_range v : 0 <= nearest 0 124 v <= 124.
Proof. unfold nearest. lia. Qed.

Lemma enc_inv_holds cfg fuel t w : happened cfg fuel c t w -> enc_inv t w.
Proof.
  revert t w. apply happened_ind.
  - unfold enc_inv. cbn. repeat split; auto; discriminate.
  - intros t w o w' e H (I1 & I2 & I3 & I4) S. unfold enc_inv, last_position, last_bank_sent, counts_from in *. rewrite !last_of_snoc. cbn [is_turned fst].
    assert (LV : log_valid (t ++ [(o, e)]) -> log_valid t) by (intros V x id Hx; apply V; apply in_or_app; auto).
    destruct o as [o|p].
    + rewrite enc_sent_switch. destruct (bswitch_step _ _ _ _ _ _ S) as (-> & -> & -> & _). split; [exact I1|]. split; [exact I2|]. split; [|exact I4].
      intros V. unfold reported at 1. cbn [fst]. destruct o as [k|k|k|[id|]]; auto. cbn. f_equal.
      assert (R : valid_id id) by (apply (V (BSwitch (Report (Some id)), e)); [apply in_or_app; right; left; reflexivity|reflexivity]). unfold valid_id in R.
      apply Z.quot_div_nonneg; lia.
    + destruct (turn_step _ _ _ _ _ _ S) as (P & _ & _ & T1 & T2). split; [exact P|]. cbn [reported fst].
      destruct (Z.eq_dec (x_pos (bw_enc w)) (-1)) as [E|E]; [destruct (T1 (or_introl E)) as (-> & V & L & _); cbn [enc_sent]; rewrite V, L; split; [exact I2|split; auto]|].
      destruct (Z.eq_dec (x_pos (bw_enc w)) (scaled c p)) as [E'|E']; [destruct (T1 (or_intror E')) as (-> & V & L & _); cbn [enc_sent]; rewrite V, L; split; [exact I2|split; auto]|].
      destruct (T2 E E') as (id & Hv & T3). cbv zeta in T3. set (v := nearest 0 124 _) in T3. destruct T3 as (L & T3 & T4).
      pose proof (nearest_range (Z.quot id 5 + (scaled c p - x_pos (bw_enc w)))) as R. fold v in R.
      assert (D : x_last (bw_enc w) = Some v \/ x_last (bw_enc w) <> Some v) by (rewrite I2; destruct (Z.eq_dec (match last_of enc_sent t None with Some b => b | None => -1 end) v) as [->|N]; [left; reflexivity|right; congruence]).
      destruct D as [D|D].
      * destruct (T3 D) as (-> & V & _). cbn [enc_sent]. rewrite L, V. rewrite <- D. split; [exact I2|]. split; [|exact I4].
        intros LV'. rewrite <- (I3 (LV LV')), Hv. reflexivity.
      * destruct (T4 D) as (-> & V & _). cbn [enc_sent]. rewrite L, V. split; [reflexivity|]. split; [reflexivity|]. intros b F. injection F as <-. exact R.
Qed.

(* Exactly what a poll does *)
Lemma turn_exact cfg fuel t w p prev b : happened cfg fuel c t w -> log_valid t -> last_position t = Some prev -> scaled c prev <> -1 -> scaled c p <> scaled c prev ->
  counts_from t = Some b ->
  let target := nearest 0 124 (b + (scaled c p - scaled c prev)) in
  exists w', bstep cfg fuel c w (BTurn p) = Some (w', if match last_bank_sent t with Some x => x =? target | None => false end then [] else [(None, CC 47 target)]) /\
    s_pre (w_sh (bw_sw w')) = if match last_bank_sent t with Some x => x =? target | None => false end then s_pre (w_sh (bw_sw w)) else Some target.
Proof.
  intros H V HP HN HM HC target. destruct (enc_inv_holds _ _ _ _ H) as (I1 & I2 & I3 & I4). rewrite HP in I1. specialize (I3 V). rewrite HC in I3.
  destruct (bank_value w) as [id|] eqn:Eb; [|discriminate]. cbn in I3. injection I3 as I3.
  assert (T : process c (bw_enc w) p <> Raise) by (apply direct_total; [reflexivity|intros _; unfold bank_value in Eb; congruence]).
  destruct (bstep cfg fuel c w (BTurn p)) as [[w' e]|] eqn:S; [|cbn [bstep] in S; destruct (process c (bw_enc w) p) as [[? ?]|]; [discriminate|contradiction]].
  exists w'. destruct (turn_step _ _ _ _ _ _ S) as (_ & _ & _ & _ & T2). rewrite I1 in T2. destruct (T2 HN ltac:(congruence)) as (id' & Hid & T3).
  rewrite Eb in Hid. injection Hid as <-. rewrite I3 in T3. cbv zeta in T3. fold target in T3. destruct T3 as (_ & T3 & T4). rewrite I2 in T3, T4.
  pose proof (nearest_range (b + (scaled c p - scaled c prev))) as R. fold target in R.
  destruct (last_bank_sent t) as [x|].
  - destruct (Z.eqb_spec x target) as [->|N].
    + destruct (T3 eq_refl) as (-> & _ & Hs). rewrite Hs. auto.
    + destruct T4 as (-> & _ & Hs); [congruence|]. rewrite Hs. auto.
  - destruct T4 as (-> & _ & Hs); [intros F; injection F as F; lia|]. rewrite Hs. auto.
Qed.

(* Everything the encoder sends is a bank message within the limits *)
Lemma enc_messages cfg fuel t w p e : happened cfg fuel c t w -> In (BTurn p, e) t -> e = [] \/ exists b, e = [(None, CC 47 b)] /\ 0 <= b <= 124.
Proof.
  intros H. revert t w H p e. refine (happened_ind cfg fuel c (fun t _ => forall p e, In (BTurn p, e) t -> e = [] \/ exists b, e = [(None, CC 47 b)] /\ 0 <= b <= 124) _ _).
  - intros p e [].
  - intros t w o w' e H IH S p e' Hin. apply in_app_or in Hin. destruct Hin as [Hin|[Hin|[]]]; [eauto|]. injection Hin as -> ->.
    destruct (turn_step _ _ _ _ _ _ S) as (P & _ & _ & T1 & T2).
    destruct (Z.eq_dec (x_pos (bw_enc w)) (-1)) as [E|E]; [left; apply T1; auto|].
    destruct (Z.eq_dec (x_pos (bw_enc w)) (scaled c p)) as [E'|E']; [left; apply T1; auto|].
    destruct (T2 E E') as (id & Hv & T3). cbv zeta in T3. set (v := nearest 0 124 _) in T3. destruct T3 as (L & T3 & T4).
    destruct (x_last (bw_enc w)) as [x|] eqn:EL; [destruct (Z.eq_dec x v) as [->|N]|].
    + left. apply T3; auto.
    + right. exists v. split; [apply T4; congruence|apply nearest_range].
    + right. exists v. split; [apply T4; congruence|apply nearest_range].
Qed.

(* ---- with the device ---- *)

Lemma snd_tag (ev : list (nat * msg)) : map snd (map (fun e => (Some (fst e), snd e)) ev) = map snd ev.
Proof. rewrite map_map. reflexivity. Qed.

Lemma presel_good (cfg : nat -> cb) : (forall k, preselects (cfg k)) -> forall k, good_cb (cfg k).
Proof. intros Hp k. specialize (Hp k). destruct (cfg k); cbn [good_cb preselects] in *; auto. Qed.

Lemma sent_snoc t o e : sent (t ++ [(o, e)]) = sent t ++ map snd e.
Proof. unfold sent. rewrite flat_map_app, map_app. cbn. rewrite app_nil_r. reflexivity. Qed.

Lemma at_switch_step cfg fuel w k o w' e d : (forall k, preselects (cfg k)) -> sane (bw_sw w) -> at_switch cfg fuel w k o = Some (w', e) ->
  (forall b, s_pre (w_sh (bw_sw w)) = Some b -> d_pending d = Some b) ->
  sane (bw_sw w') /\ forall b, s_pre (w_sh (bw_sw w')) = Some b -> d_pending (react_all d (map snd e)) = Some b.
Proof.
  intros Hp HS H I. unfold at_switch in H. set (w0 := mkWorld (looks_at (cfg k) w) (w_sh (bw_sw w)) (w_st (bw_sw w))) in H.
  destruct (wstep cfg fuel w0 o) as [[s ev]|] eqn:E; [|discriminate]. injection H as <- <-. cbn [bw_sw w_sh]. rewrite snd_tag.
  assert (S0 : sane w0) by exact HS. split.
  - exact (step_sane _ _ _ _ _ _ (presel_good cfg Hp) E S0).
  - exact (presel_step _ _ _ _ _ _ d Hp S0 E I).
Qed.

Lemma shown_pending cfg fuel d : (forall k, preselects (cfg k)) -> forall t w, happened cfg fuel c t w ->
  sane (bw_sw w) /\ forall b, s_pre (w_sh (bw_sw w)) = Some b -> d_pending (react_all d (sent t)) = Some b.
Proof.
  intros Hp. apply happened_ind.
  - split; [apply new_sane; apply presel_good; exact Hp|discriminate].
  - intros t w o w' e H (IS & IP) S. rewrite sent_snoc, react_all_app. destruct o as [o|p].
    + cbn [bstep] in S. destruct o as [k|k|k|id].
      1-3: exact (at_switch_step _ _ _ _ _ _ _ _ Hp IS S IP).
      injection S as <- <-. cbn. split; [exact IS|exact IP].
    + destruct (turn_step _ _ _ _ _ _ S) as (P & Hid & Hst & T1 & T2).
      split; [intros k; rewrite Hst; apply IS|]. intros b Hb.
      destruct (Z.eq_dec (x_pos (bw_enc w)) (-1)) as [E|E]; [destruct (T1 (or_introl E)) as (-> & _ & _ & Hs); rewrite Hs in Hb; cbn; auto|].
      destruct (Z.eq_dec (x_pos (bw_enc w)) (scaled c p)) as [E'|E']; [destruct (T1 (or_intror E')) as (-> & _ & _ & Hs); rewrite Hs in Hb; cbn; auto|].
      destruct (T2 E E') as (id & Hv & T3). cbv zeta in T3. set (v := nearest 0 124 _) in T3. destruct T3 as (L & T3 & T4).
      destruct (opt_eqb (x_last (bw_enc w)) (Some v)) eqn:EL.
      * destruct T3 as (-> & _ & Hs); [destruct (x_last (bw_enc w)); cbn in EL; [f_equal; lia|discriminate]|]. rewrite Hs in Hb. cbn. auto.
      * destruct T4 as (-> & _ & Hs); [intros F; rewrite F in EL; cbn in EL; lia|]. rewrite Hs in Hb. cbn [s_pre] in Hb. injection Hb as <-.
        destruct (react_all d (sent t)) as [di dp]. reflexivity.
Qed.

Lemma rig_press_loads cfg fuel t w d b k cf r : (forall k, preselects (cfg k)) -> happened cfg fuel c t w -> s_pre (w_sh (bw_sw w)) = Some b ->
  cfg k = RigSelect cf -> rs_rig cf = Some r ->
  exists w' e, bstep cfg fuel c w (BSwitch (Press k)) = Some (w', e) /\ s_pre (w_sh (bw_sw w')) = None /\
    react_all d (sent (t ++ [(BSwitch (Press k), e)])) = mkDevice (rig_id b (r - 1)) None.
Proof.
  intros Hp H Hb Hk Hr. destruct (shown_pending cfg fuel d Hp t w H) as (_ & Hd). specialize (Hd b Hb).
  cbn [bstep]. unfold at_switch. cbn [wstep]. rewrite Hk. unfold rs_push. cbn [w_sh w_id w_st]. rewrite Hb, Hr. cbn [is_some negb]. rewrite andb_false_r.
  eexists _, _. split; [reflexivity|]. split; [reflexivity|]. rewrite sent_snoc, react_all_app, snd_tag, snd_pair. cbn [app react_all fold_left]. unfold rig_select.
  specialize (Hp k). rewrite Hk in Hp. destruct Hp as (G & _). rewrite Hr in G. cbn [good_opt] in G.
  destruct (react_all d (sent t)) as [di dp] eqn:E. cbn [d_pending] in Hd. subst dp. fold (react_all (mkDevice di (Some b)) [CC (50 + (r - 1)) 1]).
  cbn [react_all fold_left]. rewrite react_rig' by lia. reflexivity.
Qed.

(* ---- the bank of the encoder and the bank shown ---- *)

Lemma counts_shown cfg fuel t w id : log_valid t -> happened cfg fuel c t w -> only_turned cfg fuel c t id ->
  bank_shown w = counts_from t /\ counts_from t <> None.
Proof.
  intros V H (t1 & w1 & e & t2 & -> & H1 & N & T).
  revert w V H T. induction t2 as [|t2 [o eo] IH] using rev_ind_snoc; intros w V H T.
  - destruct (happened_snoc _ _ _ _ _ _ _ H) as (w0 & H0 & S). assert (w0 = w1) by (unfold happened in *; congruence). subst w0.
    cbn [bstep] in S. injection S as <- <-. unfold bank_shown, counts_from. rewrite last_of_snoc. cbn. rewrite N. split; [reflexivity|discriminate].
  - rewrite app_comm_cons, app_assoc in H, V. destruct (happened_snoc _ _ _ _ _ _ _ H) as (w0 & H0 & S).
    assert (V0 : log_valid (t1 ++ (BSwitch (Report (Some id)), e) :: t2)) by (intros x i Hx; apply V; apply in_or_app; auto).
    destruct (IH w0 V0 H0) as (IH1 & IH2); [intros x Hx; apply T; apply in_or_app; auto|].
    assert (To : is_turned (o, eo) <> None) by (apply T; apply in_or_app; right; left; reflexivity).
    rewrite app_comm_cons, app_assoc. unfold counts_from in *. rewrite last_of_snoc. destruct o as [o|p]; [contradiction|]. cbn [reported fst].
    destruct (turn_step _ _ _ _ _ _ S) as (P & Hid & Hst & T1 & T2). unfold bank_shown in *. rewrite Hid.
    destruct (Z.eq_dec (x_pos (bw_enc w0)) (-1)) as [E|E]; [destruct (T1 (or_introl E)) as (-> & _ & _ & Hs); rewrite Hs; cbn [enc_sent]; auto|].
    destruct (Z.eq_dec (x_pos (bw_enc w0)) (scaled c p)) as [E'|E']; [destruct (T1 (or_intror E')) as (-> & _ & _ & Hs); rewrite Hs; cbn [enc_sent]; auto|].
    destruct (T2 E E') as (i & Hv & T3). cbv zeta in T3. set (v := nearest 0 124 _) in T3. destruct T3 as (L & T3 & T4).
    destruct (opt_eqb (x_last (bw_enc w0)) (Some v)) eqn:EL.
    + destruct T3 as (-> & _ & Hs); [destruct (x_last (bw_enc w0)); cbn in EL; [f_equal; lia|discriminate]|]. rewrite Hs. cbn [enc_sent]. auto.
    + destruct T4 as (-> & _ & Hs); [intros F; rewrite F in EL; cbn in EL; lia|]. rewrite Hs. cbn. split; [reflexivity|discriminate].
Qed.

(* ---- keeping the rig ---- *)

Lemma undisturbed_value cfg fuel t w id : happened cfg fuel c t w -> undisturbed t id -> bank_value w = Some id.
Proof.
  intros H (t1 & e & t2 & -> & T). revert w H T. induction t2 as [|t2 [o eo] IH] using rev_ind_snoc; intros w H T.
  - destruct (happened_snoc _ _ _ _ _ _ _ H) as (w0 & H0 & S). cbn [bstep] in S. injection S as <- <-. reflexivity.
  - rewrite app_comm_cons, app_assoc in H. destruct (happened_snoc _ _ _ _ _ _ _ H) as (w0 & H0 & S).
    specialize (IH w0 H0 ltac:(intros x Hx; apply T; apply in_or_app; auto)).
    destruct (T (o, eo)) as (T1 & T2); [apply in_or_app; right; left; reflexivity|]. destruct o as [o|p].
    + destruct (bswitch_step _ _ _ _ _ _ S) as (_ & _ & -> & _). destruct o; auto. discriminate.
    + assert (K : forall v, x_val (bw_enc w0) = Some v -> bstep cfg fuel c w0 (BTurn p) = Some (w, eo) -> eo = [] -> bank_value w = Some v).
      { clear. intros v Hv. cbn [bstep]. destruct (process c (bw_enc w0) p) as [[x ev]|] eqn:E; [|discriminate]. intros H Hm. injection H as <- <-.
        unfold bank_value. cbn [bw_enc].
        assert (S0 : sets ev = []) by (clear - Hm; induction ev as [|[a|a|a|a] ev IH]; cbn in *; auto; discriminate).
        unfold process in E. unfold check_watch in E. rewrite andb_false_r in E. cbn [e_pre bank_encoder negb andb] in E.
        set (x0 := if x_pos (bw_enc w0) =? -1 then _ else _) in E. assert (Hx : x_val x0 = Some v) by (unfold x0; destruct (_ =? _); exact Hv). clearbody x0.
        destruct (x_pos x0 =? scaled c p); [injection E as <- <-; exact Hx|].
        unfold get_value in E. cbn [e_bank bank_encoder] in E. rewrite Hx in E. cbn [x_val x_last x_pos] in E. rewrite Hx in E.
        match type of E with context [clamp ?a ?b ?z] => set (q := clamp a b z) in E; assert (Hq : q <> -1) by (unfold q; pose proof (clamp_range z); cbn [e_min e_max bank_encoder] in *; unfold NUM_BANKS; change (125 - 1) with 124; lia); clearbody q end.
        destruct (opt_eqb (x_last x0) (Some q)); [injection E as <- <-; reflexivity|].
        match type of E with context [accept ?cc ?y] => destruct (accept cc y) as [[x5 e5]|] eqn:EA; [|discriminate] end. injection E as <- <-.
        cbn [app] in S0. rewrite sets_app' in S0. apply app_eq_nil in S0. destruct S0 as [S0 _].
        apply accept_spec in EA. cbn [x_last x_pos x_active] in EA. destruct EA as [(A1 & A0 & A2)|(v' & A1 & A2 & _ & A6 & _)].
        - rewrite A0. reflexivity.
        - rewrite A6 in S0. discriminate. }
      destruct (enc_messages cfg fuel _ _ p eo H) as [->|(b & -> & _)]; [apply in_or_app; right; left; reflexivity| |discriminate].
      exact (K id IH S eq_refl).
Qed.

Lemma bank_press_keeps cfg fuel t w d k cf id w' e : happened cfg fuel c t w -> undisturbed t id -> 0 <= id -> cfg k = BankSelect cf -> bs_pre cf = false ->
  bstep cfg fuel c w (BSwitch (Press k)) = Some (w', e) ->
  react_all d (map snd e) = mkDevice (rig_id (match bs_bank_off cf with Some bo => if id / 5 =? bs_bank cf - 1 then bo - 1 else bs_bank cf - 1 | None => bs_bank cf - 1 end) (id mod 5)) None.
Proof.
  intros H U Hid Hk Hp S. pose proof (undisturbed_value _ _ _ _ _ H U) as Hv.
  cbn [bstep] in S. unfold at_switch in S. rewrite Hk in S. cbn [looks_at wstep] in S. rewrite Hk, Hv in S. cbn [w_id w_st w_sh] in S.
  unfold bs_push, bs_off in S. rewrite Hp in S. injection S as <- <-. cbn [map snd].
  rewrite bank_of_div, rig_of_mod by lia. pose proof (Z.mod_pos_bound id 5 ltac:(lia)) as M.
  cbn [react_all fold_left fst snd]. destruct d as [di dp]. rewrite react_bank. unfold rig_select. rewrite react_rig' by lia. unfold rig_id.
  destruct (bs_bank_off cf); [destruct (id / 5 =? bs_bank cf - 1)|]; reflexivity.
Qed.
End Enc.
