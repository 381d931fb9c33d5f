From Coq Require Import QArith Qround Lqa.
From Verif.Lib Require Import Base.
From Verif.Model Require Import Morph.
From Verif.Spec Require Import Morph.
Open Scope Z_scope.

Lemma Qtrunc_mono x y : (x <= y)%Q -> Qtrunc x <= Qtrunc y.
Proof.
  destruct x as [a p], y as [b q]. unfold Qle, Qtrunc. cbn [Qnum Qden]. intros H.
  assert (P : 0 < Z.pos p) by lia. assert (Q : 0 < Z.pos q) by lia.
  destruct (Z_le_gt_dec 0 a) as [Ha|Ha].
  - assert (0 <= b) by nia. rewrite !Z.quot_div_nonneg by lia.
    apply Z.div_le_lower_bound; [lia|].
    pose proof (Z.mul_div_le a (Z.pos p) P). nia.
  - destruct (Z_le_gt_dec 0 b) as [Hb|Hb].
    + assert (Z.quot a (Z.pos p) <= 0) by (apply Z.opp_nonneg_nonpos; rewrite <- Z.quot_opp_l by lia; apply Z.quot_pos; lia).
      assert (0 <= Z.quot b (Z.pos q)) by (apply Z.quot_pos; lia). lia.
    + assert (E1 : Z.quot a (Z.pos p) = - ((-a) / Z.pos p)) by (rewrite <- Z.quot_div_nonneg by lia; rewrite Z.quot_opp_l by lia; lia).
      assert (E2 : Z.quot b (Z.pos q) = - ((-b) / Z.pos q)) by (rewrite <- Z.quot_div_nonneg by lia; rewrite Z.quot_opp_l by lia; lia).
      rewrite E1, E2. enough ((-b) / Z.pos q <= (-a) / Z.pos p) by lia.
      apply Z.div_le_lower_bound; [lia|]. pose proof (Z.mul_div_le (-b) (Z.pos q) Q). nia.
Qed.
Lemma Qtrunc_eq x y : (x == y)%Q -> Qtrunc x = Qtrunc y.
Proof. intros H. apply Z.le_antisymm; apply Qtrunc_mono; rewrite H; apply Qle_refl. Qed.
Lemma Qtrunc_Z z : Qtrunc (inject_Z z) = z.
Proof. unfold Qtrunc, inject_Z. cbn [Qnum Qden]. apply Z.quot_1_r. Qed.

Section Rnd.
Context (rnd : Q -> Q) (R : rounding rnd).
Lemma rnd_eq x y : (x == y)%Q -> (rnd x == rnd y)%Q.
Proof. intros H. apply Qle_antisym; apply (proj1 R); rewrite H; apply Qle_refl. Qed.
Lemma ratio_range v : 0 <= v <= 16383 -> (0 <= rnd (inject_Z v / inject_Z 16383) <= 1)%Q.
Proof.
  intros H. destruct R as [M E]. split.
  - rewrite <- (E 0) at 1 by lia. apply M. apply Qle_shift_div_l; [reflexivity|]. rewrite Qmult_0_l. unfold Qle. cbn. lia.
  - rewrite <- (E 1) at 1 by lia. apply M. apply Qle_shift_div_r; [reflexivity|]. unfold Qle. cbn. lia.
Qed.
Lemma ratio_mono v w : v <= w -> (rnd (inject_Z v / inject_Z 16383) <= rnd (inject_Z w / inject_Z 16383))%Q.
Proof. intros H. apply (proj1 R). unfold Qdiv. apply Qmult_le_compat_r; [rewrite <- Zle_Qle; exact H|unfold Qle; cbn; lia]. Qed.
Lemma component_between b m v : 0 <= b <= 255 -> 0 <= m <= 255 -> 0 <= v <= 16383 -> between b (morph_component rnd b m v) m.
Proof.
  intros Hb Hm Hv. unfold morph_component, between. pose proof (ratio_range v Hv) as [A B]. set (q := rnd (inject_Z v / inject_Z 16383)) in *. clearbody q.
  destruct R as [M E]. destruct (Z_le_gt_dec b m) as [L|L].
  - assert (0 <= inject_Z (m - b))%Q by (change 0%Q with (inject_Z 0); rewrite <- Zle_Qle; lia).
    assert (X : 0 <= Qtrunc (rnd (inject_Z (m - b) * q))).
    { rewrite <- (Qtrunc_Z 0). apply Qtrunc_mono. rewrite <- (E 0) by lia. apply M. change (inject_Z 0) with 0%Q. nra. }
    assert (Y : Qtrunc (rnd (inject_Z (m - b) * q)) <= m - b).
    { rewrite <- (Qtrunc_Z (m - b)) at 2. apply Qtrunc_mono. rewrite <- (E (m - b)) at 2 by lia. apply M. nra. }
    lia.
  - assert (inject_Z (m - b) <= 0)%Q by (change 0%Q with (inject_Z 0); rewrite <- Zle_Qle; lia).
    assert (X : Qtrunc (rnd (inject_Z (m - b) * q)) <= 0).
    { rewrite <- (Qtrunc_Z 0). apply Qtrunc_mono. rewrite <- (E 0) by lia. apply M. change (inject_Z 0) with 0%Q. nra. }
    assert (Y : m - b <= Qtrunc (rnd (inject_Z (m - b) * q))).
    { rewrite <- (Qtrunc_Z (m - b)) at 1. apply Qtrunc_mono. rewrite <- (E (m - b)) at 1 by lia. apply M. nra. }
    lia.
Qed.
Lemma component_0 b m : morph_component rnd b m 0 = b.
Proof.
  unfold morph_component. rewrite (Qtrunc_eq _ (inject_Z 0)); [rewrite Qtrunc_Z; lia|]. apply Qeq_trans with (rnd (inject_Z 0)); [|apply (proj2 R); lia]. apply rnd_eq.
  assert (A : (rnd (inject_Z 0 / inject_Z 16383) == 0)%Q) by (apply Qeq_trans with (rnd (inject_Z 0)); [apply rnd_eq; reflexivity|apply (proj2 R 0); lia]).
  rewrite A. apply Qmult_0_r.
Qed.
Lemma component_full b m : 0 <= b <= 255 -> 0 <= m <= 255 -> morph_component rnd b m 16383 = m.
Proof.
  intros Hb Hm. unfold morph_component. rewrite (Qtrunc_eq _ (inject_Z (m - b))); [rewrite Qtrunc_Z; lia|]. apply Qeq_trans with (rnd (inject_Z (m - b))); [|apply (proj2 R); lia]. apply rnd_eq.
  assert (A : (rnd (inject_Z 16383 / inject_Z 16383) == 1)%Q) by (apply Qeq_trans with (rnd (inject_Z 1)); [apply rnd_eq; reflexivity|apply (proj2 R 1); lia]).
  rewrite A. apply Qmult_1_r.
Qed.
(* closer to the morphed colour for larger values *)
Lemma component_mono b m v w : v <= w -> b <= m -> morph_component rnd b m v <= morph_component rnd b m w.
Proof.
  intros H L. unfold morph_component. apply Z.add_le_mono_l, Qtrunc_mono, (proj1 R). pose proof (ratio_mono v w H).
  assert (0 <= inject_Z (m - b))%Q by (change 0%Q with (inject_Z 0); rewrite <- Zle_Qle; lia). nra.
Qed.
Lemma component_anti b m v w : v <= w -> m <= b -> morph_component rnd b m w <= morph_component rnd b m v.
Proof.
  intros H L. unfold morph_component. apply Z.add_le_mono_l, Qtrunc_mono, (proj1 R). pose proof (ratio_mono v w H).
  assert (inject_Z (m - b) <= 0)%Q by (change 0%Q with (inject_Z 0); rewrite <- Zle_Qle; lia). nra.
Qed.

Lemma color_between c v : mc_fix c = None -> good_rgb (mc_base c) -> good_rgb (mc_morph c) -> 0 <= v <= 16383 -> rgb_between (mc_base c) (morph_color rnd c v) (mc_morph c).
Proof.
  intros F B M V. unfold morph_color. rewrite F. destruct (mc_base c) as [[r g] b], (mc_morph c) as [[r' g'] b']. cbn in B, M |- *.
  repeat split; try (apply component_between; tauto).
  all: pose proof (component_between r r' v); pose proof (component_between g g' v); pose proof (component_between b b' v); unfold between in *; tauto.
Qed.
Lemma color_ends c : mc_fix c = None -> good_rgb (mc_base c) -> good_rgb (mc_morph c) -> morph_color rnd c 0 = mc_base c /\ morph_color rnd c 16383 = mc_morph c.
Proof.
  intros F B M. unfold morph_color. rewrite F. destruct (mc_base c) as [[r g] b], (mc_morph c) as [[r' g'] b']. cbn in B, M |- *.
  rewrite !component_0, !component_full by tauto. split; reflexivity.
Qed.

Context (conf : nat -> mconf).
Notation mrun := (run (mstep rnd conf) minit).

Lemma optz_refl v : optz_eqb v v = true.
Proof. destruct v; [apply Z.eqb_refl|reflexivity]. Qed.
Lemma optz_spec a b : optz_eqb a b = true <-> a = b.
Proof. destruct a as [a|], b as [b|]; cbn; split; intros H; try congruence; [f_equal; lia|injection H; lia]. Qed.

Record minv (ops : list mop) : Prop := {
  i_over : m_over (fst (mrun ops)) = morph_state conf (rev ops);
  i_last : forall k, m_lastv (m_cbs (fst (mrun ops)) k) = last_report k (rev ops);
  i_ign : forall k, m_ignore (m_cbs (fst (mrun ops)) k) = ignoring k (rev ops);
  i_cur : forall k z, m_cur (m_cbs (fst (mrun ops)) k) = Some (Some z) -> last_report k (rev ops) = Some z }.

Lemma setk_same f k x : setk f k x k = x.
Proof. unfold setk. rewrite Nat.eqb_refl. reflexivity. Qed.
Lemma setk_other f k x j : j <> k -> setk f k x j = f j.
Proof. intros H. unfold setk. destruct (Nat.eqb_spec j k); [contradiction|reflexivity]. Qed.

Lemma update_core s k v over x1 : let x := m_cbs s k in
  (if match m_cur x with Some c => optz_eqb v c | None => false end then (m_over s, x)
        else mevaluate (m_over s) (mkMcb (Some v) (m_lastv x) (m_ignore x) (m_on x) (m_shown x)) v) = (over, x1) ->
  exists on sh, fst (mstep rnd conf s (MUpdate k v)) = mkMstate over (setk (m_cbs s) k (mkMcb (m_cur x1) (m_lastv x1) (m_ignore x1) on sh)).
Proof.
  cbn zeta. intros E. cbn [mstep]. rewrite E. exists (m_on x1).
  destruct (match m_shown x1 with Some (c, on) => rgb_eqb (morph_color rnd (conf k) over) c && Bool.eqb on (m_on x1) | None => false end); cbn [fst].
  - exists (m_shown x1). destruct x1; reflexivity.
  - eexists. reflexivity.
Qed.

Lemma minv_all ops : minv ops.
Proof.
  induction ops as [|o ops IH] using rev_ind.
  - constructor; cbn; try reflexivity. intros k z H. discriminate.
  - destruct IH as [I1 I2 I3 I4].
    assert (EE : fst (mrun (ops ++ [o])) = fst (mstep rnd conf (fst (mrun ops)) o)).
    { rewrite run_app. cbn [fst]. rewrite run_cons. reflexivity. }
    set (s := fst (mrun ops)) in *. clearbody s.
    enough (G : m_over (fst (mstep rnd conf s o)) = morph_state conf (o :: rev ops)
      /\ forall k, let x := m_cbs (fst (mstep rnd conf s o)) k in
           m_lastv x = last_report k (o :: rev ops) /\ m_ignore x = ignoring k (o :: rev ops)
           /\ (forall z, m_cur x = Some (Some z) -> last_report k (o :: rev ops) = Some z)).
    { destruct G as [G1 G2]. constructor; rewrite EE, rev_app_distr; cbn [rev app]; [exact G1| | |]; intros k; apply (G2 k). }
    clear EE. destruct o as [k v|k on| | | |k|k].
    + destruct ((if match m_cur (m_cbs s k) with Some c => optz_eqb v c | None => false end then (m_over s, m_cbs s k)
        else mevaluate (m_over s) (mkMcb (Some v) (m_lastv (m_cbs s k)) (m_ignore (m_cbs s k)) (m_on (m_cbs s k)) (m_shown (m_cbs s k))) v)) as [over x1] eqn:E.
      destruct (update_core s k v over x1 E) as (on & sh & ->). cbn [m_over m_cbs].
      assert (G : over = morph_state conf (MUpdate k v :: rev ops) /\ m_lastv x1 = last_report k (MUpdate k v :: rev ops)
        /\ m_ignore x1 = ignoring k (MUpdate k v :: rev ops) /\ (forall z, m_cur x1 = Some (Some z) -> last_report k (MUpdate k v :: rev ops) = Some z)).
      { destruct v as [z|]; cbn [morph_state last_report ignoring]; rewrite ?Nat.eqb_refl; cbn [andb].
        - unfold news. destruct (optz_eqb (Some z) (last_report k (rev ops))) eqn:N; cbn [negb andb].
          + assert (X : over = m_over s /\ m_lastv x1 = m_lastv (m_cbs s k) /\ m_ignore x1 = m_ignore (m_cbs s k) /\ (m_cur x1 = m_cur (m_cbs s k) \/ m_cur x1 = Some (Some z))).
            { destruct (match m_cur (m_cbs s k) with Some c => optz_eqb (Some z) c | None => false end); [injection E as <- <-; tauto|].
              cbn [mevaluate m_lastv] in E. rewrite I2, N in E. injection E as <- <-. cbn. rewrite I2. tauto. }
            destruct X as (-> & -> & -> & X). rewrite I1, I2, I3. apply optz_spec in N. repeat split; [symmetry; exact N|].
            intros y Hy. destruct X as [X|X]; rewrite X in Hy; [rewrite <- (I4 k y Hy); exact N|congruence].
          + assert (C : match m_cur (m_cbs s k) with Some c => optz_eqb (Some z) c | None => false end = false).
            { destruct (m_cur (m_cbs s k)) as [[c|]|] eqn:Ec; [|reflexivity|reflexivity]. specialize (I4 k c Ec). rewrite I4 in N. exact N. }
            rewrite C in E. cbn [mevaluate m_lastv m_ignore] in E. rewrite I2, N, I3 in E. cbn [m_cur m_on m_shown] in E.
            destruct (ignoring k (rev ops)) eqn:G; cbn [negb] in E; injection E as <- <-; cbn; rewrite ?I1; (split; [reflexivity|split; [reflexivity|split; [reflexivity|intros y Hy; congruence]]]).
        - assert (X : over = m_over s /\ m_lastv x1 = m_lastv (m_cbs s k) /\ m_ignore x1 = m_ignore (m_cbs s k) /\ (m_cur x1 = m_cur (m_cbs s k) \/ m_cur x1 = Some None)).
          { destruct (match m_cur (m_cbs s k) with Some c => optz_eqb None c | None => false end); injection E as <- <-; cbn; tauto. }
          destruct X as (-> & -> & -> & X). rewrite I1, I2, I3. repeat split. intros y Hy. destruct X as [X|X]; rewrite X in Hy; [exact (I4 k y Hy)|discriminate]. }
      destruct G as (G1 & G2 & G3 & G4). split; [exact G1|]. intros j. cbn zeta. destruct (Nat.eq_dec j k) as [->|N].
      * rewrite setk_same. cbn [m_lastv m_ignore m_cur]. tauto.
      * rewrite setk_other by exact N. cbn [last_report ignoring]. assert (Nk : (k =? j)%nat = false) by (apply Nat.eqb_neq; congruence).
        destruct v as [z|]; rewrite ?Nk; cbn [andb]; (split; [apply I2|split; [apply I3|apply I4]]).
    + assert (X : exists x, fst (mstep rnd conf s (MUser k on)) = mkMstate (if mc_suppress (conf k) then m_over s else if on then toggled (m_over s) else m_over s) (setk (m_cbs s) k x)
        /\ m_lastv x = m_lastv (m_cbs s k) /\ m_ignore x = m_ignore (m_cbs s k) /\ m_cur x = m_cur (m_cbs s k)).
      { cbn [mstep]. destruct (mc_suppress (conf k)); eexists; (split; [reflexivity|]); cbn; tauto. }
      destruct X as (x & -> & X1 & X2 & X3). cbn [m_over m_cbs morph_state last_report ignoring]. split.
      * destruct on, (mc_suppress (conf k)); rewrite I1; reflexivity.
      * intros j. cbn zeta. destruct (Nat.eq_dec j k) as [->|N]; [rewrite setk_same, X1, X2, X3|rewrite setk_other by exact N]; (split; [apply I2|split; [apply I3|apply I4]]).
    + cbn. split; [reflexivity|]. intros j. split; [apply I2|split; [apply I3|apply I4]].
    + cbn. rewrite I1. split; [reflexivity|]. intros j. split; [apply I2|split; [apply I3|apply I4]].
    + cbn. split; [reflexivity|]. intros j. split; [apply I2|split; [apply I3|apply I4]].
    + cbn [mstep fst m_over m_cbs morph_state last_report ignoring]. split; [exact I1|]. intros j. cbn zeta. destruct (Nat.eq_dec j k) as [->|N].
      * rewrite setk_same, Nat.eqb_refl. cbn. split; [apply I2|split; [reflexivity|apply I4]].
      * rewrite setk_other by exact N. replace (k =? j)%nat with false by (symmetry; apply Nat.eqb_neq; congruence). split; [apply I2|split; [apply I3|apply I4]].
    + cbn [mstep fst m_over m_cbs morph_state last_report ignoring]. split; [exact I1|]. intros j. cbn zeta. destruct (Nat.eq_dec j k) as [->|N].
      * rewrite setk_same. cbn. split; [apply I2|split; [apply I3|discriminate]].
      * rewrite setk_other by exact N. split; [apply I2|split; [apply I3|apply I4]].
Qed.

Lemma state_range rh : Forall in_range rh -> 0 <= morph_state conf rh <= 16383.
Proof.
  induction 1 as [|o rh H _ IH]; [cbn; lia|]. assert (T : forall x, 0 <= toggled x <= 16383) by (intros x; unfold toggled; case_if; lia).
  destruct o as [k [v|]|k [|]| | | |k|k]; cbn [morph_state]; try exact IH; try lia; try apply T.
  - cbn in H. case_if; [exact H|exact IH].
  - destruct (mc_suppress (conf k)); [exact IH|apply T].
Qed.

Lemma last_shown_app k a b : last_shown k (a ++ b) = match last_shown k b with Some x => Some x | None => last_shown k a end.
Proof.
  induction a as [|e a IH]; cbn [app last_shown]; [destruct (last_shown k b); reflexivity|]. destruct e as [j v|j c]; [exact IH|].
  rewrite IH. destruct (last_shown k b); [reflexivity|]. destruct (last_shown k a); reflexivity.
Qed.
Lemma rgb_spec a b : rgb_eqb a b = true -> a = b.
Proof. destruct a as [[x y] z], b as [[x' y'] z']. cbn. intros H. f_equal; [f_equal|]; lia. Qed.


(* what is remembered as shown is what has been shown last *)
Lemma shown_inv ops k c on : m_shown (m_cbs (fst (mrun ops)) k) = Some (c, on) -> last_shown k (snd (mrun ops)) = Some c.
Proof.
  revert k c on. induction ops as [|o ops IH] using rev_ind; intros k c on H; [discriminate|].
  rewrite run_snoc in H |- *. cbn [fst snd] in H |- *. rewrite last_shown_app.
  set (s := fst (mrun ops)) in *. clearbody s. destruct o as [j v|j b| | | |j|j].
  - cbn [mstep] in *. destruct ((if match m_cur (m_cbs s j) with Some c => optz_eqb v c | None => false end then (m_over s, m_cbs s j)
        else mevaluate (m_over s) (mkMcb (Some v) (m_lastv (m_cbs s j)) (m_ignore (m_cbs s j)) (m_on (m_cbs s j)) (m_shown (m_cbs s j))) v)) as [over x1] eqn:E.
    assert (X : m_shown x1 = m_shown (m_cbs s j)).
    { destruct (match m_cur (m_cbs s j) with Some c => optz_eqb v c | None => false end); [injection E as <- <-; reflexivity|].
      destruct v as [z|]; cbn [mevaluate m_lastv m_ignore] in E; [|injection E as <- <-; reflexivity].
      destruct (optz_eqb (Some z) (m_lastv (m_cbs s j))); [injection E as <- <-; reflexivity|]. destruct (m_ignore (m_cbs s j)); injection E as <- <-; reflexivity. }
    destruct (match m_shown x1 with Some (c, on) => rgb_eqb (morph_color rnd (conf j) over) c && Bool.eqb on (m_on x1) | None => false end); cbn [fst snd m_cbs last_shown] in *.
    + destruct (Nat.eq_dec k j) as [->|N]; [rewrite setk_same, X in H|rewrite setk_other in H by exact N]; exact (IH _ _ _ H).
    + destruct (Nat.eq_dec k j) as [->|N].
      * rewrite setk_same in H. cbn in H. rewrite Nat.eqb_refl. congruence.
      * rewrite setk_other in H by exact N. replace (j =? k)%nat with false by (symmetry; apply Nat.eqb_neq; congruence). exact (IH _ _ _ H).
  - cbn [mstep] in *. destruct (mc_suppress (conf j)); cbn [fst snd m_cbs last_shown] in *;
      (destruct (Nat.eq_dec k j) as [->|N]; [rewrite setk_same in H; cbn in H|rewrite setk_other in H by exact N]); exact (IH _ _ _ H).
  - exact (IH _ _ _ H).
  - exact (IH _ _ _ H).
  - exact (IH _ _ _ H).
  - cbn [mstep fst snd m_cbs last_shown] in *. destruct (Nat.eq_dec k j) as [->|N]; [rewrite setk_same in H; cbn in H|rewrite setk_other in H by exact N]; exact (IH _ _ _ H).
  - cbn [mstep fst snd m_cbs last_shown] in *. destruct (Nat.eq_dec k j) as [->|N]; [rewrite setk_same in H; cbn in H; discriminate|rewrite setk_other in H by exact N]; exact (IH _ _ _ H).
Qed.

(* every display update leaves the colour of the morph state on display *)
Lemma update_shows ops k v : last_shown k (snd (mrun (ops ++ [MUpdate k v]))) = Some (morph_color rnd (conf k) (morph_state conf (rev (ops ++ [MUpdate k v])))).
Proof.
  rewrite <- (i_over _ (minv_all (ops ++ [MUpdate k v]))). pose proof (shown_inv (ops ++ [MUpdate k v]) k) as S.
  assert (X : exists on, m_shown (m_cbs (fst (mrun (ops ++ [MUpdate k v]))) k) = Some (morph_color rnd (conf k) (m_over (fst (mrun (ops ++ [MUpdate k v])))), on)).
  { rewrite run_snoc. cbn [fst]. set (s := fst (mrun ops)). clearbody s. cbn [mstep].
    destruct ((if match m_cur (m_cbs s k) with Some c => optz_eqb v c | None => false end then (m_over s, m_cbs s k)
        else mevaluate (m_over s) (mkMcb (Some v) (m_lastv (m_cbs s k)) (m_ignore (m_cbs s k)) (m_on (m_cbs s k)) (m_shown (m_cbs s k))) v)) as [over x1].
    destruct (m_shown x1) as [[c on]|] eqn:E; [destruct (rgb_eqb (morph_color rnd (conf k) over) c && Bool.eqb on (m_on x1)) eqn:Q|]; cbn [fst m_over m_cbs]; rewrite setk_same.
    - exists on. rewrite E. apply andb_true_iff in Q. destruct Q as [Q _]. apply rgb_spec in Q. rewrite Q. reflexivity.
    - eexists. reflexivity.
    - eexists. reflexivity. }
  destruct X as [on X]. exact (S _ _ X).
Qed.

(* the commands sent *)
Lemma sets_app k a b : sets_of k (a ++ b) = sets_of k a ++ sets_of k b.
Proof. unfold sets_of. apply flat_map_app. Qed.
Lemma sets_all ops k : sets_of k (snd (mrun ops)) = if mc_suppress (conf k) then [] else flat_map (fun o => match o with MUser j on => if (j =? k)%nat then [if on then 1 else 0] else [] | _ => [] end) ops.
Proof.
  induction ops as [|o ops IH] using rev_ind; [destruct (mc_suppress (conf k)); reflexivity|].
  rewrite run_snoc. cbn [snd]. rewrite sets_app, IH, flat_map_app.
  set (s := fst (mrun ops)). clearbody s. destruct o as [j v|j b| | | |j|j].
  - cbn [mstep]. destruct ((if match m_cur (m_cbs s j) with Some c => optz_eqb v c | None => false end then (m_over s, m_cbs s j)
        else mevaluate (m_over s) (mkMcb (Some v) (m_lastv (m_cbs s j)) (m_ignore (m_cbs s j)) (m_on (m_cbs s j)) (m_shown (m_cbs s j))) v)) as [over x1].
    destruct (match m_shown x1 with Some (c, on) => rgb_eqb (morph_color rnd (conf j) over) c && Bool.eqb on (m_on x1) | None => false end); cbn; destruct (mc_suppress (conf k)); rewrite ?app_nil_r; reflexivity.
  - cbn [mstep]. destruct (mc_suppress (conf j)) eqn:S; cbn [snd sets_of flat_map]; destruct (Nat.eqb_spec j k) as [->|N]; rewrite ?S; cbn; rewrite ?app_nil_r; try reflexivity; destruct (mc_suppress (conf k)); reflexivity.
  - cbn. destruct (mc_suppress (conf k)); rewrite ?app_nil_r; reflexivity.
  - cbn. destruct (mc_suppress (conf k)); rewrite ?app_nil_r; reflexivity.
  - cbn. destruct (mc_suppress (conf k)); rewrite ?app_nil_r; reflexivity.
  - cbn. destruct (mc_suppress (conf k)); rewrite ?app_nil_r; reflexivity.
  - cbn. destruct (mc_suppress (conf k)); rewrite ?app_nil_r; reflexivity.
Qed.
End Rnd.
