From Verif.Lib Require Import Base.
From Verif.Model Require Import Midi Rig RigDisplay.
From Verif.Spec Require Import Rig RigDisplay.
From Verif.Proofs Require Import Rig.

Lemma rig_parts b r : 0 <= r <= 4 -> rig_id b r / 5 = b /\ rig_id b r mod 5 = r.
Proof. unfold rig_id. intros H. split; [symmetry; apply (Z.div_unique _ 5 b r)|symmetry; apply (Z.mod_unique _ 5 b r)]; lia. Qed.
Lemma rig_div b r : 0 <= r <= 4 -> rig_id b r / 5 = b.
Proof. intros H. apply rig_parts. exact H. Qed.
Lemma rs_text_names l b r : 0 <= r <= 4 -> names_rig l (rs_text l b r) (rig_id b r).
Proof.
  intros H. destruct (rig_parts b r H) as (E1 & E2). unfold names_rig, rs_text, plain_text. rewrite E1, E2. split.
  - intros (-> & ->). reflexivity.
  - intros f ->. reflexivity.
Qed.
Lemma rs_on_there c id : 0 <= id -> rs_on c (Some id) = already_there c id.
Proof.
  intros H. unfold rs_on, already_there. rewrite rig_of_mod, bank_of_div by exact H. destruct (rs_rig c) as [r|]; [|reflexivity]. rewrite (Z.eqb_sym (id mod 5)), andb_comm. f_equal.
  destruct (rs_bank c); [apply Z.eqb_sym|reflexivity].
Qed.

Lemma target_text c l s sh id : good_rs c -> valid_id id -> good_opt (k_rig_off s) 5 ->
  (rs_bank c <> None -> (k_rig_off s = None <-> k_bank_off s = None)) ->
  names_rig l (rs_target_text c l s sh (bank_of id) (rig_of id) (rs_on c (Some id))) (target c (k_rig_off s) (k_bank_off s) (s_pre sh) id).
Proof.
  intros (G1 & _ & G3 & _) Hid Gr Hw. unfold valid_id in Hid. rewrite rs_on_there by lia. rewrite rig_of_mod, bank_of_div by lia. assert (B := Z.mod_pos_bound id 5 ltac:(lia)).
  unfold rs_target_text, target. destruct (s_pre sh) as [p|].
  - destruct (rs_rig c) as [r|]; cbn [number good_opt] in *; apply rs_text_names; lia.
  - destruct (already_there c id) eqn:Ea.
    + unfold already_there in Ea. destruct (rs_rig c) as [r|] eqn:Er; [|discriminate Ea]. apply andb_true_iff in Ea. destruct Ea as (E1 & E2). cbn in G1. destruct (rs_bank c) as [b|].
      * assert (Hw' := Hw ltac:(discriminate)). destruct (k_rig_off s) as [ro|], (k_bank_off s) as [bo|]; cbn [number good_opt] in *.
        -- apply rs_text_names. lia.
        -- exfalso. destruct Hw' as (_ & Hw'). discriminate (Hw' eq_refl).
        -- exfalso. destruct Hw' as (Hw' & _). discriminate (Hw' eq_refl).
        -- replace (id / 5) with (b - 1) by lia. replace (id mod 5) with (r - 1) by lia. apply rs_text_names. lia.
      * destruct (k_rig_off s) as [ro|]; cbn [number good_opt] in *; [apply rs_text_names; lia|]. replace (id mod 5) with (r - 1) by lia. apply rs_text_names. lia.
    + destruct (rs_bank c) as [b|], (rs_rig c) as [r|]; cbn [number good_opt] in *; apply rs_text_names; lia.
Qed.
Lemma target_bank c s sh id l : good_rs c -> valid_id id -> good_opt (k_rig_off s) 5 -> lk_target l = true -> plain_color l ->
  rs_color c l s sh (bank_of id) (rig_of id) (rs_on c (Some id)) = CBank (target c (k_rig_off s) (k_bank_off s) (s_pre sh) id / 5 mod 5).
Proof.
  intros (G1 & _ & G3 & _) Hid Gr Ht (H1 & H2). unfold valid_id in Hid. rewrite rs_on_there by lia. rewrite rig_of_mod, bank_of_div by lia. assert (B := Z.mod_pos_bound id 5 ltac:(lia)).
  unfold rs_color, target, bank_color. rewrite H1, H2, Ht. destruct (s_pre sh) as [p|].
  - destruct (rs_rig c) as [r|]; cbn [number good_opt] in *; rewrite rig_div by lia; reflexivity.
  - destruct (already_there c id) eqn:Ea.
    + unfold already_there in Ea. destruct (rs_rig c) as [r|] eqn:Er; [|discriminate Ea]. apply andb_true_iff in Ea. destruct Ea as (E1 & E2). cbn in G1.
      destruct (rs_bank c) as [b|]; destruct (k_rig_off s) as [ro|], (k_bank_off s) as [bo|]; cbn [number good_opt] in *; rewrite rig_div by lia; try reflexivity.
      all: replace (id / 5) with (b - 1) by lia; reflexivity.
    + destruct (rs_bank c) as [b|], (rs_rig c) as [r|]; cbn [number good_opt] in *; rewrite rig_div by lia; try reflexivity.
      all: destruct (k_bank_off s); reflexivity.
Qed.

Lemma offs_together c seen : rs_valid c = true -> whole_off c -> rs_bank c <> None -> (off_rig c seen = None <-> off_bank c seen = None).
Proof.
  unfold rs_valid, whole_off, off_rig, off_bank. intros Hv Hw Hb. specialize (Hw Hb). destruct (rs_bank c) as [b|]; [|contradiction].
  destruct (rs_rig_off c), (rs_bank_off c), (rs_rig c); cbn in Hv; try discriminate Hv; split; intros H; try discriminate H; try reflexivity; exfalso; apply Hw; congruence.
Qed.

Lemma rs_announced cfg fuel ops w ev k c l id blink : cfg k = RigSelect c -> good_rs c -> rs_valid c = true -> lk_target l = true ->
  whistory cfg fuel (ops ++ [Draw k]) w ev -> reports_valid ops -> w_id w = Some id ->
  let d := rs_show c l (Some id) (w_st w k) (w_sh w) blink in
  exists n w' m, wstep cfg fuel w (Press k) = Some (w', map (pair k) m) /\ react_all (mkDevice id (s_pre (w_sh w))) m = mkDevice n None /\
    (whole_off c -> names_rig l (d_text d) n) /\ bank_colored l d (n / 5).
Proof.
  intros Hk Hg Hval Ht H Hv Hid. cbv zeta.
  assert (Hv' : reports_valid (ops ++ [Draw k])). { intros x Hx. apply in_app_or in Hx. destruct Hx as [Hx|[Hx|[]]]; [apply Hv; exact Hx|discriminate Hx]. }
  destruct (off_tracked cfg fuel k c Hk _ w ev H Hv') as (_ & I2 & I3 & I4 & _). assert (Gid := I2 id Hid).
  assert (Go : good_opt (k_rig_off (w_st w k)) 5) by (rewrite I3; apply off_rig_good; auto).
  destruct (rs_press_history cfg fuel _ w ev k c id Hk Hg H Hv' Hid) as (w' & b & r & P1 & P2 & P3 & _).
  eexists _, w', _. split; [exact P1|]. split; [exact P3|]. rewrite <- I3, <- I4. unfold rs_show. rewrite Ht. cbn [d_text d_led d_back]. split.
  - intros Hw. apply target_text; auto. intros Hb. rewrite I3, I4. apply offs_together; assumption.
  - intros Hp. cbn [d_led d_back]. rewrite target_bank by assumption. split; reflexivity.
Qed.

Lemma rs_lit c l id s sh blink : 0 <= id -> lk_target l = true -> s_pre sh = None ->
  let d := rs_show c l (Some id) s sh blink in d_bright d = already_there c id /\ d_dim d = negb (already_there c id).
Proof. intros H Ht Hp. cbv zeta. unfold rs_show. rewrite Hp, Ht, rs_on_there by exact H. cbn. split; reflexivity. Qed.
Lemma rs_preselected c l id s sh b p : s_pre sh = Some p -> let d := rs_show c l (Some id) s sh (Some b) in d_bright d = negb b /\ d_dim d = true.
Proof. intros Hp. cbv zeta. unfold rs_show. rewrite Hp. destruct (lk_target l); split; reflexivity. Qed.
Lemma rs_current_mode c l id s sh blink : 0 <= id -> lk_target l = false ->
  let d := rs_show c l (Some id) s sh blink in names_rig l (d_text d) id /\ bank_colored l d (id / 5).
Proof.
  intros H Ht. cbv zeta. unfold rs_show. rewrite Ht. cbn [d_text d_led d_back]. assert (B := Z.mod_pos_bound id 5 ltac:(lia)). rewrite rig_of_mod, bank_of_div by exact H. split.
  - replace id with (rig_id (id / 5) (id mod 5)) at 3 by (unfold rig_id; rewrite <- Z.div_mod; lia). apply rs_text_names. lia.
  - intros (H1 & H2). cbn. unfold rs_color. rewrite H1, H2, Ht. destruct (rs_bank c); split; reflexivity.
Qed.

(* rig up / down *)
Lemma rc_announced up keep l id sent sh x sh' m : valid_id id -> rig_change_push up keep (Some id) sent sh = (x, sh', m) ->
  let d := rc_show up keep l (Some id) in
  exists n, react_all (mkDevice id None) m = mkDevice n None /\
    (if lk_target l then names_rig l (d_text d) n /\ bank_colored l d (n / 5) else names_rig l (d_text d) id /\ bank_colored l d (id / 5)).
Proof.
  intros Hv E. cbv zeta. exists (neighbour up keep id). split; [eapply rig_change_device; eauto|]. unfold rc_show, bank_colored. cbn [d_text d_led d_back].
  assert (Hn : next_rig up keep id = neighbour up keep id). { apply next_rig_neighbour. exact Hv. }
  rewrite Hn. assert (Hv2 := neighbour_valid up keep id Hv). set (n := neighbour up keep id) in *. clearbody n. unfold valid_id in *.
  assert (T : forall z, 0 <= z -> names_rig l (rs_text l (bank_of z) (rig_of z)) z).
  { intros z Hz. assert (B := Z.mod_pos_bound z 5 ltac:(lia)). rewrite rig_of_mod, bank_of_div by exact Hz. replace z with (rig_id (z / 5) (z mod 5)) at 3 by (unfold rig_id; rewrite <- Z.div_mod; lia). apply rs_text_names. lia. }
  destruct (lk_target l); (split; [apply T; lia|]); intros (-> & ->); unfold bank_color; rewrite bank_of_div by lia; split; reflexivity.
Qed.

(* bank up / down *)
Lemma bc_announced fuel c l label dim id sh own blink sh' m : bc_pre c = true -> lk_target l = true -> dim <> DimOn -> bank_change_push fuel c (Some id) sh = Some (sh', m) -> 0 <= id ->
  exists b d, bc_show fuel c l label dim (Some id) sh own blink = Some (Ok d) /\ m = [CC 47 b] /\ s_pre sh' = Some b /\
    (forall f, lk_tcb l = Some f -> d_text d = LCustom (f b (id mod 5))) /\ bank_colored l d b /\
    d_bright d = match s_pre sh with Some _ => if own then negb blink else true | None => true end.
Proof.
  intros Hp Ht Hd H Hid. unfold bank_change_push in H. rewrite Hp in H. unfold bc_show. destruct (next_bank fuel c id sh) as [b|]; [|discriminate H]. injection H as <- <-.
  replace (label && match dim with DimOn => true | _ => false end) with false by (destruct dim; try contradiction; rewrite andb_false_r; reflexivity).
  eexists b, _. split; [reflexivity|]. split; [reflexivity|]. split; [reflexivity|]. rewrite Hp, Ht. cbn [d_text d_led d_back d_bright]. split; [|split].
  - intros f ->. rewrite rig_of_mod. reflexivity.
  - unfold bank_colored. intros (-> & ->). split; reflexivity.
  - destruct (s_pre sh); cbn; [destruct own|]; reflexivity.
Qed.

(* bank select *)
Lemma bs_drawn c l a b id sh blink : Forall unknown_yet a -> Forall known b ->
  last_shown (snd (run (bdstep c l) bs_new (a ++ b ++ [BDraw (Some id) sh blink]))) = Some (bs_show c l id (bs_current c id sh blink)).
Proof.
  intros Ha Hb. assert (Ia : fst (run (bdstep c l) bs_new a) = bs_new).
  { induction a as [|o a IH] using rev_ind; [reflexivity|]. apply Forall_app in Ha. destruct Ha as (Ha & Ho). specialize (IH Ha). apply Forall_cons_iff in Ho. destruct Ho as (Ho & _). rewrite run_snoc.
    destruct (run (bdstep c l) bs_new a) as [s ev]. cbn [fst] in *. subst s. destruct o as [v sh' bl|]; [cbn in Ho; subst v; reflexivity|reflexivity]. }
  assert (Ib : forall e0 s ev, run (bdstep c l) bs_new b = (s, ev) -> match e_cur s with Some x => exists cu, e_last s = Some cu /\ last_shown (e0 ++ ev) = Some (bs_show c l x cu) | None => True end).
  { clear Ha Ia. induction b as [|o b IH] using rev_ind; intros e0 s ev Hr; [cbn in Hr; injection Hr as <- <-; exact I|]. apply Forall_app in Hb. destruct Hb as (Hb & Ho). apply Forall_cons_iff in Ho. destruct Ho as (Ho & _). rewrite run_snoc in Hr.
    destruct (run (bdstep c l) bs_new b) as [s0 ev0] eqn:E0. specialize (IH Hb e0 s0 ev0 eq_refl). cbn [fst snd] in Hr. destruct o as [[x|] sh' bl|]; cbn [known] in Ho; [|congruence|].
    - cbn [bdstep] in Hr. destruct (opt_is (e_cur s0) x && match e_last s0 with Some q => Bool.eqb q (bs_current c x sh' bl) | None => false end) eqn:E.
      + injection Hr as <- <-. rewrite app_nil_r. exact IH.
      + injection Hr as <- <-. cbn. eexists. split; [reflexivity|]. unfold last_shown. rewrite app_assoc, rev_app_distr. reflexivity.
    - cbn [bdstep] in Hr. injection Hr as <- <-. exact I. }
  rewrite run_app. destruct (run (bdstep c l) bs_new a) as [s0 e0]. cbn [fst snd] in *. subst s0. rewrite run_snoc. destruct (run (bdstep c l) bs_new b) as [s1 e1] eqn:E1. cbn [fst snd].
  specialize (Ib e0 s1 e1 eq_refl). cbn [bdstep]. destruct (opt_is (e_cur s1) id && match e_last s1 with Some q => Bool.eqb q (bs_current c id sh blink) | None => false end) eqn:E.
  - cbn [snd]. rewrite app_nil_r. apply andb_true_iff in E. destruct E as (E2 & E3). destruct (e_cur s1) as [x|]; [|discriminate E2]. cbn in E2. apply Z.eqb_eq in E2. subst x.
    destruct Ib as (cu & Hc & Hl). rewrite Hc in E3. apply Bool.eqb_prop in E3. subst cu. exact Hl.
  - cbn [snd]. unfold last_shown. rewrite app_assoc, rev_app_distr. reflexivity.
Qed.
Lemma bs_announced c l id sent sh blink sent' sh' ms : 0 <= id -> lk_target l = true -> bs_push c (Some id) sent sh = (sent', sh', ms) ->
  let d := bs_show c l id (bs_current c id sh blink) in
  exists b, (forall p, react_all (mkDevice id p) ms = if bs_pre c then mkDevice id (Some b) else mkDevice (rig_id b (id mod 5)) None) /\
    (plain_text l -> d_text d = LBank (b + 1)) /\ (lk_text l = None -> forall f, lk_tcb l = Some f -> d_text d = LCustom (f b (id mod 5))) /\ bank_colored l d b.
Proof.
  intros Hid Ht H. cbv zeta. destruct (bank_select_press c sent sh id sent' sh' ms Hid H) as (_ & P). eexists. split; [exact P|]. unfold bs_show, bs_current, bs_color, bank_colored. rewrite Ht.
  cbn [d_text d_led d_back]. rewrite bank_of_div, rig_of_mod by exact Hid. unfold bs_off. destruct (bs_pre c) eqn:Ep; cbn [andb].
  - split; [|split].
    + intros (H1 & H2). unfold bs_text. rewrite H1, H2. destruct (if opt_is (s_pre sh) (bs_bank c - 1) then blink else id / 5 =? bs_bank c - 1); reflexivity.
    + intros H1 f H2. unfold bs_text. rewrite H1, H2. destruct (if opt_is (s_pre sh) (bs_bank c - 1) then blink else id / 5 =? bs_bank c - 1); reflexivity.
    + intros (-> & ->). split; reflexivity.
  - destruct (bs_bank_off c) as [bo|]; destruct (id / 5 =? bs_bank c - 1); (split; [|split]);
      try (intros (H1 & H2); unfold bs_text; rewrite ?H1, ?H2; try split; reflexivity); intros H1 f H2; unfold bs_text; rewrite H1, H2; reflexivity.
Qed.
Lemma bs_lit c l id sh blink : 0 <= id -> lk_target l = true -> let d := bs_show c l id (bs_current c id sh blink) in
  d_bright d = (if bs_pre c && match s_pre sh with Some p => p =? bs_bank c - 1 | None => false end then blink else id / 5 =? bs_bank c - 1) /\ d_dim d = negb (d_bright d).
Proof. intros Hid Ht. cbv zeta. unfold bs_show, bs_current. rewrite Ht, bank_of_div by exact Hid. cbn. unfold opt_is. split; reflexivity. Qed.

Lemma configured l id : 0 <= id ->
  (forall c s sh blink, as_configured l (rs_show c l (Some id) s sh blink) id) /\ (forall up keep, as_configured l (rc_show up keep l (Some id)) id) /\
  (forall c cur, as_configured l (bs_show c l id cur) id).
Proof.
  intros Hid. unfold as_configured. rewrite <- rig_of_mod, <- bank_of_div by exact Hid. split; [|split].
  - intros c s sh blink. split; [|split].
    + intros x H. unfold rs_show, rs_color. rewrite H. destruct (lk_target l); split; reflexivity.
    + intros f H1 H2. unfold rs_show, rs_color. rewrite H1, H2. destruct (lk_target l); split; reflexivity.
    + intros t H1 H2. assert (T : forall b r, rs_text l b r = LCustom t) by (intros b r; unfold rs_text; rewrite H1, H2; reflexivity).
      unfold rs_show. destruct (lk_target l); cbn [d_text]; [|apply T]. unfold rs_target_text. destruct (s_pre sh), (rs_bank c), (rs_on c (Some id)), (k_rig_off s), (k_bank_off s), (rs_rig c); apply T.
  - intros up keep. split; [|split].
    + intros x H. unfold rc_show. rewrite H. split; reflexivity.
    + intros f H1 H2. unfold rc_show. rewrite H1, H2. split; reflexivity.
    + intros t H1 H2. unfold rc_show, rs_text. rewrite H1, H2. cbn. destruct (lk_target l); reflexivity.
  - intros c cur. split; [|split].
    + intros x H. unfold bs_show, bs_color. rewrite H. destruct (lk_target l); split; reflexivity.
    + intros f H1 H2. unfold bs_show, bs_color. rewrite H1, H2. destruct (lk_target l); split; reflexivity.
    + intros t H1 H2. unfold bs_show, bs_text. rewrite H2. destruct (lk_target l), cur, (bs_off c); reflexivity.
Qed.
Lemma unknown l : (forall c s sh blink, blank (rs_show c l None s sh blink)) /\ (forall up keep, blank (rc_show up keep l None)) /\
  (forall c s sh blink, Forall blank (snd (bdstep c l s (BDraw None sh blink)))).
Proof. split; [|split]; intros; [split; reflexivity|split; reflexivity|]. cbn. repeat constructor. Qed.
