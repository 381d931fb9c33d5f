From Verif.Lib Require Import Base.
From Verif.Model Require Import Measure.
From Verif.Spec Require Import Measure.

Record meas_rel (m : meas) (w : window) (t : Z) : Prop := {
  r_start : m_start m = match w_started w with Some s => s | None => 0 end;
  r_started : match w_started w with Some s => s <> 0 /\ s <= t | None => True end;
  r_max : m_value m = fold_right Z.max 0 (w_durations w);
  r_sum : m_aggr m = fold_right Z.add 0 (w_durations w);
  r_num : m_num m = Z.of_nat (length (w_durations w));
  r_last : m_last m = w_last w;
  r_pos : Forall (fun d => 0 <= d) (w_durations w) }.

Lemma fold_max_snoc l x : fold_right Z.max 0 (l ++ [x]) = Z.max (fold_right Z.max 0 l) (Z.max x 0).
Proof. induction l as [|a l IH]; cbn [app fold_right]; lia. Qed.
Lemma fold_add_snoc l x : fold_right Z.add 0 (l ++ [x]) = fold_right Z.add 0 l + x.
Proof. induction l as [|a l IH]; cbn [app fold_right]; lia. Qed.
Lemma fold_max_nonneg l : 0 <= fold_right Z.max 0 l.
Proof. induction l as [|a l IH]; cbn [fold_right]; lia. Qed.
Lemma fold_add_nonneg l : Forall (fun d => 0 <= d) l -> 0 <= fold_right Z.add 0 l.
Proof. induction 1; cbn [fold_right]; lia. Qed.

Lemma meas_sim i ops : forall m w t, m_interval m = i -> meas_rel m w t -> clock_ok t ops -> 0 <= t ->
  snd (run meas_step m ops) = snd (run (window_step i) w ops).
Proof.
  induction ops as [|o ops IH]; intros m w t Hi R C T; [reflexivity|].
  rewrite !run_cons. cbn [snd]. destruct C as [C1 C2]. destruct R as [R1 R2 R3 R4 R5 R6 R7].
  destruct o as [now|now|now]; cbn [meas_step window_step time_of] in *.
  - cbn [fst snd app]. apply (IH _ _ now); try assumption; [|lia]. constructor; cbn; try assumption.
    + destruct (now =? 0) eqn:E; lia.
    + destruct (now =? 0) eqn:E; [exact I|lia].
  - destruct (w_started w) as [s|] eqn:ES.
    + destruct R2 as [S1 S2]. rewrite R1. replace (s =? 0) with false by lia. cbn [fst snd app].
      apply (IH _ _ now); try assumption; [|lia]. constructor; cbn; try assumption.
      * reflexivity.
      * lia.
      * rewrite fold_max_snoc, R3. pose proof (fold_max_nonneg (w_durations w)). case_if; lia.
      * rewrite fold_add_snoc, R4. reflexivity.
      * rewrite app_length, R5. cbn. lia.
      * apply Forall_app. split; [assumption|]. constructor; [lia|constructor].
    + rewrite R1. cbn [fst snd app]. change (0 =? 0) with true. cbn [fst snd app].
      apply (IH _ _ now); try assumption; [|lia]. constructor; try assumption; rewrite ES; [exact R1|exact I].
  - rewrite R6, Hi. destruct (w_last w + i <? now); cbn [fst snd app].
    + f_equal.
      * f_equal; [assumption| |assumption|assumption]. unfold average. rewrite R5, R4. destruct (Z.of_nat (length (w_durations w)) =? 0) eqn:E; [reflexivity|].
        apply Z.quot_div_nonneg; [apply fold_add_nonneg; assumption|lia].
      * apply (IH _ _ now); [reflexivity| |assumption|lia]. constructor; cbn; try reflexivity; constructor.
    + apply (IH _ _ now); try assumption; [|lia]. constructor; try assumption. destruct (w_started w); [lia|exact I].
Qed.
