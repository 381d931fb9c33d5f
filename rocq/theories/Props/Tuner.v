(* C53: the tuner display. *)
From Verif.Lib Require Import Base.
From Verif.Model Require Import Layout Tuner.
From Verif.Spec Require Import Tuner.
From Verif.Proofs Require Import Tuner.

(* The marker stays within the bar if there is no zoom, or the bar starts at the left edge of the display. *)
Theorem C53_marker_inside_partial c v : good_tuner c -> reported v ->
  (zoom_num c = zoom_den c \/ (bx (t_bounds c) = 0 /\ bw (t_bounds c) < 16384)) -> marker_inside c (marker_x c v).
Proof. exact (marker_bounds c v). Qed.
Print Assumptions C53_marker_inside_partial.

(* In every case it never exceeds the right end, and exceeds the left end by at most one pixel ... *)
Theorem C53_marker_almost_inside c v : good_tuner c -> reported v -> bw (t_bounds c) < 16384 ->
  bx (t_bounds c) - 1 <= marker_x c v /\ marker_x c v + t_marker c <= bx (t_bounds c) + bw (t_bounds c).
Proof. intros G R W. split; [exact (marker_almost c v G R W)|exact (marker_right c v G R)]. Qed.
Print Assumptions C53_marker_almost_inside.
(* ... which does happen. *)
Theorem C53_marker_inside_refuted : exists c v, good_tuner c /\ reported v /\ ~ marker_inside c (marker_x c v).
Proof.
  exists (mkTuner (mkBounds 10 0 230 40) 5 24 10 7842 8542), 0. unfold good_tuner, reported, marker_inside. cbn. split; [lia|]. split; [lia|].
  vm_compute. intros [H _]. apply H. reflexivity.
Qed.
Print Assumptions C53_marker_inside_refuted.

Theorem C53_monotone c v w : good_tuner c -> v <= w -> marker_x c v <= marker_x c w.
Proof. exact (marker_mono c v w). Qed.
Print Assumptions C53_monotone.

(* After any history in which a deviance other than 8192 occurred, the display shows the last deviance: marker position, and in-tune colour
   of marker and note exactly within the calibration limits. *)
Theorem C53_deviance_shown c ops : moved ops ->
  exists v, last_dev ops = Some v /\ u_x (tuner_run c ops) = marker_x c v
  /\ u_color (tuner_run c ops) = (if in_tune c v then InTune else OutOfTune)
  /\ u_text_color (tuner_run c ops) = Some (if in_tune c v then InTune else OutOfTune).
Proof. exact (proj1 (proj2 (dev_shown c ops))). Qed.
Print Assumptions C53_deviance_shown.

Theorem C53_in_tune_limits c v : in_tune c v = true <-> cal_low c <= v <= cal_high c.
Proof. unfold in_tune. lia. Qed.
Print Assumptions C53_in_tune_limits.

Theorem C53_note_shown c ops : u_note (tuner_run c ops) = option_map (fun v => v mod 12) (last_note ops).
Proof. exact (proj1 (note_shown c ops)). Qed.
Print Assumptions C53_note_shown.

Definition ex_tuner : tuner_conf := mkTuner (mkBounds 0 200 240 40) 5 24 10 7842 8542.
Example ex_tuner_good : good_tuner ex_tuner.
Proof. unfold good_tuner, ex_tuner. cbn. lia. Qed.
Example C53_ex : let s := tuner_run ex_tuner [Note 64; Dev 8192; Dev 9000; Note 65] in
  u_x s = 145 /\ u_color s = OutOfTune /\ u_note s = Some 5 /\ moved [Note 64; Dev 8192; Dev 9000; Note 65].
Proof. repeat split; try reflexivity. exists 9000. split; [cbn; tauto|lia]. Qed.
(* Finding: a note that is in tune exactly from the start (8192) does not get the in-tune colour. *)
Example C53_finding_start : u_text_color (tuner_run ex_tuner [Note 64; Dev 8192]) = None.
Proof. reflexivity. Qed.
