(* C70 *)
From Verif.Lib Require Import Base.
From Verif.Model Require Import Midi Rig.
From Verif.Spec Require Import Rig RigMorph.

Section Follow.
Context (cfg : nat -> cb) (M : bool) (Hc : forall k, follows M (cfg k)).

Record inv (w : world) (d : mdevice) (h : option nat) : Prop := {
  i_pre : s_pre (w_sh w) = None;
  i_morph : shown_morph w = snd d;
  i_pend : d_pending (fst d) = None;
  i_valid : valid_id (d_id (fst d));
  i_off : forall k c, cfg k = RigSelect c -> k_rig_off (w_st w k) = None /\ k_bank_off (w_st w k) = None;
  i_held : M = true -> snd d <> 0 -> exists k c, h = Some k /\ cfg k = RigSelect c /\ same_rig c (d_id (fst d)) = true /\ w_id w = Some (d_id (fst d));
  i_sent : forall k c, h = Some k -> cfg k = RigSelect c -> exists r, k_sent (w_st w k) = Some r;
  i_range : forall k r, k_sent (w_st w k) = Some r -> 0 <= r <= 4 }.

Lemma react_bank d b : react d (CC 47 b) = mkDevice (d_id d) (Some b).
Proof. destruct d. cbn. reflexivity. Qed.
Lemma mreact_bank d b : mreact M d (CC 47 b) = (mkDevice (d_id (fst d)) (Some b), snd d).
Proof. unfold mreact. rewrite react_bank. destruct b as [|[]|]; reflexivity. Qed.
Lemma react_rig d r : 0 <= r <= 4 -> react d (CC (50 + r) 1) = mkDevice (5 * (match d_pending d with Some b => b | None => d_id d / 5 end) + r) None.
Proof. intros H. assert (Hr : r = 0 \/ r = 1 \/ r = 2 \/ r = 3 \/ r = 4) by lia. destruct Hr as [->|[->|[->|[->| ->]]]]; reflexivity. Qed.
Lemma is_rig_50 r : 0 <= r <= 4 -> is_rig_cc (50 + r) = true.
Proof. intros H. unfold is_rig_cc. apply andb_true_iff. split; apply Z.leb_le; lia. Qed.
Lemma mreact_rig d r : 0 <= r <= 4 -> let n := 5 * (match d_pending (fst d) with Some b => b | None => d_id (fst d) / 5 end) + r in
  mreact M d (CC (50 + r) 1) = (mkDevice n None, if n =? d_id (fst d) then (if M then 16383 else if 0 <? snd d then 0 else 16383) else 0).
Proof. intros H. cbv zeta. unfold mreact. rewrite react_rig by exact H. rewrite is_rig_50 by exact H. reflexivity. Qed.
Lemma react_off d c : react d (CC c 0) = if c =? 47 then mkDevice (d_id d) (Some 0) else d.
Proof. destruct (Z.eqb_spec c 47) as [->|H]; [reflexivity|]. unfold react. destruct c as [|p|p]; try reflexivity. do 6 (destruct p; try reflexivity). exfalso. apply H. reflexivity. Qed.
Lemma mreact_off d r : 0 <= r -> mreact M d (CC (50 + r) 0) = (fst d, if is_rig_cc (50 + r) && M then 0 else snd d).
Proof. intros H. unfold mreact. rewrite react_off. destruct (Z.eqb_spec (50 + r) 47); [lia|]. reflexivity. Qed.

Lemma same_rig_spec c r id : good_rs c -> rs_rig c = Some r -> valid_id id ->
  same_rig c id = (5 * (match rs_bank c with Some b => b - 1 | None => id / 5 end) + (r - 1) =? id).
Proof.
  intros (Hr & _ & Hb & _) E Hv. unfold valid_id in Hv. unfold same_rig, opt_is, rig_of, bank_of, NUM_RIGS_PER_BANK. rewrite E in *. cbn in Hr.
  rewrite Z.quot_div_nonneg by lia. assert (Hd := Z.div_mod id 5 ltac:(lia)). assert (Hm := Z.mod_pos_bound id 5 ltac:(lia)).
  destruct (rs_bank c) as [b|]; cbn in Hb.
  - destruct (Z.eqb_spec r (id mod 5 + 1)), (Z.eqb_spec b 0), (Z.eqb_spec b (id / 5 + 1)), (Z.eqb_spec (5 * (b - 1) + (r - 1)) id); cbn; try reflexivity; exfalso; lia.
  - destruct (Z.eqb_spec r (id mod 5 + 1)), (Z.eqb_spec (5 * (id / 5) + (r - 1)) id); cbn; try reflexivity; exfalso; lia.
Qed.

Lemma inv_new id0 : valid_id id0 -> inv (new_world cfg) (mkDevice id0 None, 0) None.
Proof.
  intros Hv. split; cbn; auto.
  - intros k c E. specialize (Hc k). rewrite E in *. cbn in *. destruct Hc as (_ & _ & -> & -> & _). auto.
  - intros _ H. congruence.
  - intros k c H. discriminate.
  - intros k r H. unfold cb_new, rs_new in H. destruct (cfg k); discriminate H.
Qed.

Lemma put_st_eq (f : nat -> cbst) k s : put_st f k s k = s.
Proof. unfold put_st. rewrite Nat.eqb_refl. reflexivity. Qed.
Lemma put_st_spec (f : nat -> cbst) k s j : put_st f k s j = s \/ put_st f k s j = f j.
Proof. unfold put_st. destruct (j =? k)%nat; auto. Qed.

Lemma inv_draw w d h fuel k w' ev : inv w d h -> wstep cfg fuel w (Draw k) = Some (w', ev) -> inv w' d h.
Proof.
  intros I H. cbn in H. destruct (cfg k) as [up keep|bc|c|bs] eqn:E; injection H as <- <-; try exact I.
  assert (Hk := Hc k). rewrite E in Hk. cbn in Hk. destruct Hk as (_ & _ & Hro & Hbo & _).
  assert (Hd : k_sent (rs_draw c (w_id w) (w_st w k)) = k_sent (w_st w k) /\ k_rig_off (rs_draw c (w_id w) (w_st w k)) = k_rig_off (w_st w k) /\
               k_bank_off (rs_draw c (w_id w) (w_st w k)) = k_bank_off (w_st w k)).
  { unfold rs_draw. rewrite Hro, Hbo. destruct (w_id w) as [id|]; [|auto]. destruct (opt_is _ id); [auto|]. cbn.
    destruct (rs_rig c), (rs_bank c); rewrite ?andb_false_r; cbn; auto. }
  destruct Hd as (Hd1 & Hd2 & Hd3). destruct I. split; cbn; auto.
  - intros j c' Ej. unfold put_st. destruct (Nat.eqb_spec j k) as [->|]; [|eauto]. rewrite Hd2, Hd3. eauto.
  - intros j c' Eh Ej. unfold put_st. destruct (Nat.eqb_spec j k) as [->|]; [|eauto]. rewrite Hd1. eauto.
  - intros j r. unfold put_st. destruct (Nat.eqb_spec j k) as [->|]; [|eauto]. rewrite Hd1. eauto.
Qed.

Lemma next_other up keep id : valid_id id -> next_rig up keep id <> id -> valid_id (next_rig up keep id).
Proof.
  unfold valid_id, next_rig, rig_of, NUM_RIGS_PER_BANK, NUM_BANKS. intros H. assert (Hm := Z.mod_pos_bound id 5 ltac:(lia)). assert (Hd := Z.div_mod id 5 ltac:(lia)).
  destruct up, keep; repeat match goal with |- context [if ?a <? ?b then _ else _] => destruct (Z.ltb_spec a b) end; lia.
Qed.

Lemma inv_press w d fuel k w' ev : inv w d None -> w_id w = Some (d_id (fst d)) -> wstep cfg fuel w (Press k) = Some (w', ev) ->
  inv w' (mreact_all M d (map snd ev)) (Some k).
Proof.
  intros I Hid H. destruct I as [Ip Im Ipd Iv Io Ih Is Ir]. cbn in H. rewrite Hid in H. set (id := d_id (fst d)) in *. assert (Hk := Hc k).
  destruct (cfg k) as [up keep|bc|c|bs] eqn:E; cbn in Hk; try contradiction.
  - (* rig up / down *)
    unfold rig_change_push in H. destruct (Z.eqb_spec (next_rig up keep id) id) as [En|En].
    + injection H as <- <-. cbn. split; cbn; auto.
      * intros j c' Ej. unfold put_st. destruct (Nat.eqb_spec j k) as [->|]; [congruence|eauto].
      * intros HM Hz. exfalso. destruct (Ih HM Hz) as (? & ? & ? & _). discriminate.
      * intros j c' [= <-] Ej. congruence.
      * intros j r. unfold put_st. destruct (Nat.eqb_spec j k) as [->|]; [|eauto]. cbn. eauto.
    + assert (Hn := next_other up keep id Iv En). set (n := next_rig up keep id) in *. injection H as <- <-.
      assert (Hn5 : 0 <= rig_of n <= 4) by (unfold rig_of, NUM_RIGS_PER_BANK; pose proof (Z.mod_pos_bound n 5); lia).
      assert (Hnd : n = 5 * (n / 5) + rig_of n) by (unfold rig_of, NUM_RIGS_PER_BANK; apply Z.div_mod; lia).
      assert (Hb : bank_of n = n / 5) by (unfold bank_of, NUM_RIGS_PER_BANK, valid_id in *; apply Z.quot_div_nonneg; lia).
      assert (Hb' : bank_of id = id / 5) by (unfold bank_of, NUM_RIGS_PER_BANK, valid_id in *; apply Z.quot_div_nonneg; lia).
      assert (Hr : mreact_all M d (map snd (map (pair k) ((if negb (bank_of n =? bank_of id) then [bank_select (bank_of n)] else []) ++ [rig_select (rig_of n) 1]))) = (mkDevice n None, 0)).
      { rewrite map_map. cbn [snd]. rewrite map_id. unfold mreact_all, bank_select, rig_select. destruct (Z.eqb_spec (bank_of n) (bank_of id)) as [Eb|Eb]; cbn [negb app fold_left].
        - rewrite mreact_rig by exact Hn5. rewrite Ipd. fold id.
          replace (5 * (id / 5) + rig_of n) with n by congruence. destruct (Z.eqb_spec n id); [contradiction|reflexivity].
        - rewrite mreact_bank. rewrite mreact_rig by exact Hn5. cbn [fst snd d_pending d_id]. fold id. rewrite Hb, <- Hnd. destruct (Z.eqb_spec n id); [contradiction|reflexivity]. }
      rewrite Hr. split; cbn; auto.
      * intros j c' Ej. unfold put_st. destruct (Nat.eqb_spec j k) as [->|]; [congruence|eauto].
      * intros _ Hz. congruence.
      * intros j c' [= <-] Ej. congruence.
      * intros j r. unfold put_st. destruct (Nat.eqb_spec j k) as [->|]; [|eauto]. cbn. intros [= <-]. exact Hn5.
  - (* rig selection *)
    destruct Hk as (Hg & Hr & Hro & Hbo & Hbm & Hmo). destruct (rs_rig c) as [r|] eqn:Er; [|congruence]. clear Hr.
    destruct (Io k c E) as (Ho1 & Ho2). assert (Hr5 : 1 <= r <= 5) by (destruct Hg as (Hg & _); rewrite Er in Hg; exact Hg).
    unfold rs_push in H.
    rewrite Ip, Ho1, Ho2 in H. cbn [is_some negb andb] in H.
    replace (if rs_on c (Some id) && true then None else None) with (@None Z) in H by (destruct (rs_on c (Some id)); reflexivity).
    assert (Hmsg : (match rs_bank c with Some b => [bank_select (b - 1)] | None => [] end ++ [rig_select (r - 1) 1]) =
      match rs_bank c with Some b => [CC 47 (b - 1); CC (50 + (r - 1)) 1] | None => [CC (50 + (r - 1)) 1] end) by (destruct (rs_bank c); reflexivity).
    rewrite Hmsg in H. clear Hmsg. injection H as <- <-.
    set (n := 5 * (match rs_bank c with Some b => b - 1 | None => id / 5 end) + (r - 1)).
    assert (Hsame : same_rig c id = (n =? id)) by (apply same_rig_spec; assumption).
    assert (Hv : valid_id n).
    { unfold n, valid_id in *. destruct Hg as (_ & _ & Hgb & _). destruct (rs_bank c) as [b|]; cbn in Hgb; [lia|].
      assert (0 <= id / 5 <= 124); [|lia]. split; [apply Z.div_pos; lia|]. apply Z.lt_succ_r, Z.div_lt_upper_bound; lia. }
    assert (Hd : mreact_all M d (map snd (map (pair k) match rs_bank c with Some b => [CC 47 (b - 1); CC (50 + (r - 1)) 1] | None => [CC (50 + (r - 1)) 1] end)) =
       (mkDevice n None, if n =? id then (if M then 16383 else if 0 <? snd d then 0 else 16383) else 0)).
    { rewrite map_map. cbn [snd]. rewrite map_id. unfold mreact_all, n. destruct (rs_bank c) as [b|]; cbn [fold_left].
      - rewrite mreact_bank, mreact_rig by lia. cbn [fst snd d_pending d_id]. reflexivity.
      - rewrite mreact_rig by lia. rewrite Ipd. reflexivity. }
    rewrite Hd. assert (Hm : morph_after c (w_st w k) (Some id) (s_morph (w_sh w)) = if n =? id then (if M then 16383 else if 0 <? snd d then 0 else 16383) else 0).
    { unfold morph_after, toggles_morph. rewrite Ho1, Ho2, Hbm, Hsame, Hmo. cbn [is_some negb andb]. unfold shown_morph in Im. rewrite Im. reflexivity. }
    split; cbn; auto.
    + intros j c' Ej. unfold put_st. destruct (Nat.eqb_spec j k) as [->|]; [cbn; auto|eauto].
    + intros HM Hz. exists k, c. split; [reflexivity|]. split; [exact E|]. destruct (Z.eqb_spec n id) as [En|En]; [|congruence].
      change (same_rig c n = true /\ Some id = Some n). rewrite En. split; [exact Hsame|reflexivity].
    + intros j c' [= <-] Ej. exists (r - 1). rewrite put_st_eq. reflexivity.
    + intros j x. unfold put_st. destruct (Nat.eqb_spec j k) as [->|]; [|eauto]. cbn. intros [= <-]. lia.
Qed.

Lemma inv_release w d fuel k w' ev : inv w d (Some k) -> wstep cfg fuel w (Let_go k) = Some (w', ev) -> inv w' (mreact_all M d (map snd ev)) None.
Proof.
  intros I H. destruct I as [Ip Im Ipd Iv Io Ih Is Ir]. cbn in H. assert (Hk := Hc k).
  assert (Hst : forall s, k_sent s = None -> (forall c, cfg k = RigSelect c -> k_rig_off s = None /\ k_bank_off s = None) ->
     (forall j c, cfg j = RigSelect c -> k_rig_off (put_st (w_st w) k s j) = None /\ k_bank_off (put_st (w_st w) k s j) = None) /\
     (forall j r, k_sent (put_st (w_st w) k s j) = Some r -> 0 <= r <= 4)).
  { intros s Hs Ho. split; intros j; unfold put_st; destruct (Nat.eqb_spec j k) as [->|]; eauto. intros r. rewrite Hs. discriminate. }
  destruct (cfg k) as [up keep|bc|c|bs] eqn:E; cbn in Hk; try contradiction.
  - assert (Hz : M = true -> snd d = 0).
    { intros HM. destruct (Z.eq_dec (snd d) 0) as [Hz|Hz]; [exact Hz|]. destruct (Ih HM Hz) as (j & c & [= <-] & Ej & _). congruence. }
    destruct (release_sent (k_sent (w_st w k))) as [x m] eqn:Ers. injection H as <- <-.
    assert (Hd : mreact_all M d (map snd (map (pair k) m)) = d /\ x = None).
    { rewrite map_map. cbn [snd]. rewrite map_id. unfold release_sent in Ers. destruct (k_sent (w_st w k)) as [r|] eqn:Er; injection Ers as <- <-; [|split; reflexivity].
      split; [|reflexivity]. unfold mreact_all, rig_select. cbn [fold_left]. rewrite mreact_off by (apply Ir in Er; lia). destruct d as [d0 z]. cbn [fst snd] in *.
      destruct M; [rewrite Hz by reflexivity; destruct (is_rig_cc (50 + r)); reflexivity|rewrite andb_false_r; reflexivity]. }
    destruct Hd as (-> & ->). destruct (Hst (put_sent (w_st w k) None) eq_refl) as (H1 & H2); [intros c Ec; congruence|].
    split; cbn; auto.
    + intros HM Hn. exfalso. apply Hn. apply Hz. exact HM.
    + intros j c' Hn. discriminate.
  - destruct Hk as (Hg & Hr & Hro & Hbo & Hbm & Hmo). destruct (Io k c E) as (Ho1 & Ho2). destruct (Is k c eq_refl E) as (r & Er). assert (Hr4 := Ir k r Er).
    unfold rs_release in H. rewrite Er in H. cbn [release_sent] in H. injection H as <- <-.
    assert (Hd : mreact_all M d (map snd (map (pair k) [rig_select r 0])) = (fst d, if M then 0 else snd d)).
    { cbn [map snd]. unfold mreact_all, rig_select. cbn [fold_left]. rewrite mreact_off by lia. rewrite is_rig_50 by exact Hr4. reflexivity. }
    change (map snd [(k, rig_select r 0)]) with (map snd (map (pair k) [rig_select r 0])). rewrite Hd. destruct (Hst (mkCbst None (k_cur (w_st w k)) (k_rig_off (w_st w k)) (k_bank_off (w_st w k))) eq_refl) as (H1 & H2); [intros; cbn; auto|].
    split; cbn [w_sh w_st w_id fst snd s_pre]; auto.
    + unfold shown_morph. cbn [w_sh s_morph]. unfold toggles_morph. rewrite Ho1, Ho2, Hbm, Hmo. cbn [is_some negb andb]. unfold shown_morph in Im.
      destruct M eqn:EM; [|destruct (w_id w); rewrite ?andb_false_r; exact Im].
      destruct (Z.eq_dec (snd d) 0) as [Hz|Hz].
      * destruct (w_id w) as [id|]; [|congruence]. rewrite andb_true_r. destruct (same_rig c id); [reflexivity|congruence].
      * destruct (Ih eq_refl Hz) as (j & c' & [= <-] & Ej & Hs & Hw). rewrite Hw. assert (c' = c) by congruence. subst c'. rewrite Hs. reflexivity.
    + intros HM Hn. exfalso. rewrite HM in Hn. apply Hn. reflexivity.
    + intros j c' Hn. discriminate.
Qed.

Lemma inv_all id0 w d h : valid_id id0 -> together cfg M id0 w d h -> inv w d h.
Proof.
  intros Hv. induction 1 as [|w d h H IH|w d h fuel k w' ev H IH Hs|w d fuel k w' ev H IH Hi Hs|w d fuel k w' ev H IH Hs].
  - apply inv_new. exact Hv.
  - destruct IH. split; cbn; auto. intros HM Hz. destruct (i_held0 HM Hz) as (k & c & Ha & Hb & Hd & He). eauto 8.
  - eapply inv_draw; eauto.
  - eapply inv_press; eauto.
  - eapply inv_release; eauto.
Qed.
End Follow.

Lemma follow cfg M id0 w d h : (forall k, follows M (cfg k)) -> valid_id id0 -> together cfg M id0 w d h -> shown_morph w = snd d.
Proof. intros Hc Hv H. eapply i_morph. eapply inv_all; eauto. Qed.
Lemma momentary_over cfg id0 w d : (forall k, follows true (cfg k)) -> valid_id id0 -> together cfg true id0 w d None -> shown_morph w = 0.
Proof.
  intros Hc Hv H. assert (I := inv_all cfg true Hc id0 w d None Hv H). rewrite (i_morph _ _ _ _ _ I). destruct (Z.eq_dec (snd d) 0) as [Hz|Hz]; [exact Hz|].
  destruct (i_held _ _ _ _ _ I eq_refl Hz) as (? & ? & ? & _). discriminate.
Qed.
