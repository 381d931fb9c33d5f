From Verif.Lib Require Import Base.
From Verif.Model Require Import Layout Tuner.
From Verif.Spec Require Import Tuner.

Lemma scaled_range c v : good_tuner c -> reported v -> -1 <= value_scaled c v <= 16383 /\ (zoom_num c = zoom_den c -> 0 <= value_scaled c v).
Proof.
  intros (_ & _ & N & D) R. unfold value_scaled, reported in *. destruct (zoom_num c =? zoom_den c) eqn:E; cbn [negb]; split; lia.
Qed.
Lemma scaled_mono c v w : good_tuner c -> v <= w -> value_scaled c v <= value_scaled c w.
Proof.
  intros (_ & _ & N & D) L. unfold value_scaled. destruct (negb (zoom_num c =? zoom_den c)); [|exact L].
  assert (Z.quot ((v - 8192) * zoom_num c) (zoom_den c) <= Z.quot ((w - 8192) * zoom_num c) (zoom_den c)) by (apply Z.quot_le_mono; nia).
  lia.
Qed.
Lemma marker_mono c v w : good_tuner c -> v <= w -> marker_x c v <= marker_x c w.
Proof.
  intros G L. pose proof (scaled_mono c v w G L). destruct G as (B & (M1 & M2) & _ & _). unfold marker_x.
  apply Z.quot_le_mono; nia.
Qed.
Lemma marker_right c v : good_tuner c -> reported v -> marker_x c v + t_marker c <= bx (t_bounds c) + bw (t_bounds c).
Proof.
  intros G R. destruct (scaled_range c v G R) as [S1 S2]. destruct G as (B & (M1 & M2) & N & D). unfold marker_x.
  set (X := bx (t_bounds c)) in *. set (W := bw (t_bounds c) - t_marker c). set (vs := value_scaled c v) in *.
  assert (W0 : 0 <= W) by (unfold W; lia).
  assert (U : Z.quot (X * 16384 + W * vs) 16384 <= X + W).
  { rewrite <- (Z.quot_mul (X + W) 16384) by lia. apply Z.quot_le_mono; nia. }
  unfold W in U; lia.
Qed.
Lemma marker_bounds c v : good_tuner c -> reported v -> (zoom_num c = zoom_den c \/ (bx (t_bounds c) = 0 /\ bw (t_bounds c) < 16384)) -> marker_inside c (marker_x c v).
Proof.
  intros G R Hz. split; [|apply marker_right; assumption].
  destruct (scaled_range c v G R) as [S1 S2]. destruct G as (B & (M1 & M2) & N & D). unfold marker_x.
  set (X := bx (t_bounds c)) in *. set (W := bw (t_bounds c) - t_marker c). set (vs := value_scaled c v) in *.
  assert (W0 : 0 <= W) by (unfold W; lia).
  destruct Hz as [Hz|[Hz Hw]].
  - specialize (S2 Hz). rewrite <- (Z.quot_mul X 16384) at 1 by lia. apply Z.quot_le_mono; nia.
  - rewrite Hz. destruct (Z.eq_dec vs (-1)) as [->|Hv].
    + replace (0 * 16384 + W * -1) with (- W) by ring. rewrite Z.quot_opp_l by lia. rewrite Z.quot_small by lia. lia.
    + apply Z.quot_pos; nia.
Qed.
Lemma marker_almost c v : good_tuner c -> reported v -> bw (t_bounds c) < 16384 -> bx (t_bounds c) - 1 <= marker_x c v.
Proof.
  intros G R Hw. destruct (scaled_range c v G R) as [S1 S2]. destruct G as (B & (M1 & M2) & N & D). unfold marker_x.
  set (X := bx (t_bounds c)) in *. set (W := bw (t_bounds c) - t_marker c). set (vs := value_scaled c v) in *.
  assert (W0 : 0 <= W < 16384) by (unfold W; lia).
  rewrite <- (Z.quot_mul (X - 1) 16384) by lia. apply Z.quot_le_mono; nia.
Qed.
Lemma marker_start_inside c : good_tuner c -> marker_inside c (marker_start c).
Proof.
  intros (B & (M1 & M2) & N & D). unfold marker_inside, marker_start. rewrite Z.quot_div_nonneg by lia. lia.
Qed.

Lemma run_snoc_t c ops o : tuner_run c (ops ++ [o]) = tuner_step c (tuner_run c ops) o.
Proof. unfold tuner_run. apply fold_left_snoc. Qed.
Lemma last_dev_snoc ops o : last_dev (ops ++ [o]) = match o with Dev v => Some v | Note _ => last_dev ops end.
Proof. unfold last_dev. rewrite fold_left_snoc. destruct o; reflexivity. Qed.
Lemma last_note_snoc ops o : last_note (ops ++ [o]) = match o with Note v => Some v | Dev _ => last_note ops end.
Proof. unfold last_note. rewrite fold_left_snoc. destruct o; reflexivity. Qed.

Lemma note_shown c ops : u_note (tuner_run c ops) = option_map (fun v => v mod 12) (last_note ops) /\ u_last_note (tuner_run c ops) = last_note ops.
Proof.
  induction ops as [|ops o [IH1 IH2]] using rev_ind_snoc; [split; reflexivity|].
  rewrite run_snoc_t, last_note_snoc. destruct o as [v|v]; cbn [tuner_step].
  - rewrite IH2. destruct (last_note ops) as [n|]; [destruct (v =? n) eqn:E|]; cbn [u_note u_last_note option_map]; try (split; reflexivity).
    assert (v = n) by lia. subst. split; [exact IH1|exact IH2].
  - case_if; cbn [u_note u_last_note]; split; assumption.
Qed.

Lemma dev_shown c ops :
  u_last_dev (tuner_run c ops) = match last_dev ops with Some v => v | None => 8192 end
  /\ (moved ops -> exists v, last_dev ops = Some v /\ u_x (tuner_run c ops) = marker_x c v
      /\ u_color (tuner_run c ops) = (if in_tune c v then InTune else OutOfTune)
      /\ u_text_color (tuner_run c ops) = Some (if in_tune c v then InTune else OutOfTune))
  /\ (~ moved ops -> u_x (tuner_run c ops) = marker_start c /\ u_color (tuner_run c ops) = InTune /\ u_text_color (tuner_run c ops) = None
      /\ (last_dev ops = None \/ last_dev ops = Some 8192)).
Proof.
  induction ops as [|ops o (IH1 & IH2 & IH3)] using rev_ind_snoc.
  - split; [reflexivity|]. split; [intros (v & [] & _)|]. intros _. repeat split. left. reflexivity.
  - rewrite run_snoc_t, last_dev_snoc. destruct o as [v|v].
    + assert (M : moved (ops ++ [Note v]) <-> moved ops).
      { unfold moved. split; intros (w & I & Hw); exists w; (split; [|exact Hw]).
        - apply in_app_or in I. destruct I as [I|[I|[]]]; [exact I|discriminate].
        - apply in_or_app. left. exact I. }
      rewrite M. cbn [tuner_step]. case_if; cbn [u_last_dev u_x u_color u_text_color]; auto.
    + cbn [tuner_step]. rewrite IH1. destruct (v =? match last_dev ops with Some v0 => v0 | None => 8192 end) eqn:E.
      * assert (Ev : v = match last_dev ops with Some v0 => v0 | None => 8192 end) by lia. split; [rewrite IH1; symmetry; exact Ev|].
        split.
        -- intros (w & I & Hw). assert (Mo : moved ops).
           { apply in_app_or in I. destruct I as [I|[I|[]]]; [exists w; split; assumption|]. injection I as ->.
             destruct (last_dev ops) as [u|] eqn:EL; [|lia]. exists u. split; [|lia].
             clear - EL. revert u EL. induction ops as [|ops x IH] using rev_ind_snoc; intros u EL; [discriminate|].
             rewrite last_dev_snoc in EL. apply in_or_app. destruct x; [left; apply IH; exact EL|]. injection EL as ->. right. left. reflexivity. }
           destruct (IH2 Mo) as (u & E1 & E2). rewrite E1 in Ev. subst u. exists v. split; [reflexivity|exact E2].
        -- intros Nm. assert (Nm' : ~ moved ops).
           { intros (w & I & Hw). apply Nm. exists w. split; [apply in_or_app; left; exact I|exact Hw]. }
           destruct (IH3 Nm') as (A & B & C & [D|D]); rewrite D in Ev; subst v; repeat split; auto.
      * cbn [u_last_dev u_x u_color u_text_color]. split; [reflexivity|]. split.
        -- intros _. exists v. repeat split; reflexivity.
        -- intros Nm. exfalso. destruct (Z.eq_dec v 8192) as [->|Hv].
           ++ assert (Mo : moved ops).
              { destruct (last_dev ops) as [u|] eqn:EL; [|lia]. exists u. split; [|lia].
                clear - EL. revert u EL. induction ops as [|ops x IH] using rev_ind_snoc; intros u EL; [discriminate|].
                rewrite last_dev_snoc in EL. apply in_or_app. destruct x; [left; apply IH; exact EL|]. injection EL as ->. right. left. reflexivity. }
              apply Nm. destruct Mo as (w & I & Hw). exists w. split; [apply in_or_app; left; exact I|exact Hw].
           ++ apply Nm. exists v. split; [apply in_or_app; right; left; reflexivity|exact Hv].
Qed.
