(* C54: runtime statistics. *)
From Verif.Lib Require Import Base.
From Verif.Model Require Import Measure.
From Verif.Spec Require Import Measure.
From Verif.Proofs Require Import Measure.

(* For every history with a clock that never runs backwards, the reports are those of the durations collected since the last report. *)
Theorem C54_reports i ops : clock_ok 0 ops ->
  snd (run meas_step (meas_init i) ops) = snd (run (window_step i) (mkWindow None [] 0) ops).
Proof.
  intros C. apply (meas_sim i ops _ _ 0); [reflexivity| |exact C|lia].
  constructor; cbn; try reflexivity; try exact I. constructor.
Qed.
Print Assumptions C54_reports.

Definition ex_ops : list meas_op := [Start 10; Finish 15; Start 20; Finish 32; Update 500; Update 1001; Start 1010; Update 2100; Finish 2110; Update 3200].
Example C54_ex : clock_ok 0 ex_ops /\ snd (run meas_step (meas_init 1000) ex_ops) = [Report 12 8 17 2; Report 0 0 0 0; Report 0 0 0 0].
Proof. split; [cbn; lia|reflexivity]. Qed.
