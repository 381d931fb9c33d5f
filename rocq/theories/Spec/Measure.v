(* C54: the durations measured since the last report. *)
From Verif.Lib Require Import Base.
From Verif.Model Require Import Measure.

(* The measurement in progress (if any) and the durations so far; a report forgets both. The clock shows 0 only before the first
   millisecond: a measurement started then is taken as not started. *)
Record window := mkWindow { w_started : option Z; w_durations : list Z; w_last : Z }.
Definition window_step (interval : Z) (w : window) (o : meas_op) : window * list meas_ev :=
  match o with
  | Start now => (mkWindow (if now =? 0 then None else Some now) (w_durations w) (w_last w), [])
  | Finish now => match w_started w with
                  | Some t => (mkWindow (w_started w) (w_durations w ++ [now - t]) (w_last w), [])
                  | None => (w, [])
                  end
  | Update now =>
      if w_last w + interval <? now
      then (mkWindow None [] now,
            let total := fold_right Z.add 0 (w_durations w) in
            let calls := Z.of_nat (length (w_durations w)) in
            [Report (fold_right Z.max 0 (w_durations w)) (if calls =? 0 then 0 else total / calls) total calls])
      else (w, [])
  end.
(* The clock never runs backwards *)
Definition time_of (o : meas_op) : Z := match o with Start t | Finish t | Update t => t end.
Fixpoint clock_ok (t : Z) (ops : list meas_op) : Prop :=
  match ops with [] => True | o :: ops' => t <= time_of o /\ clock_ok (time_of o) ops' end.
