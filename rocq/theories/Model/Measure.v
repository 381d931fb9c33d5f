(* controller/measure.py: RuntimeMeasurement *)
From Verif.Lib Require Import Base.

(* measure.py:7-14 __init__, 42-49 reset *)
Record meas := mkMeas { m_interval : Z; m_last : Z; m_value : Z; m_start : Z; m_aggr : Z; m_num : Z }.
Definition meas_reset (m : meas) : meas := mkMeas (m_interval m) (m_last m) 0 0 0 0.
Definition meas_init (i : Z) : meas := mkMeas i 0 0 0 0 0.

(* measure.py:17-21; int(a / b) of numbers small enough for the division to be exact *)
Definition average (m : meas) : Z := if m_num m =? 0 then 0 else Z.quot (m_aggr m) (m_num m).

(* What the listeners can read in measurement_updated: maximum, average, sum, calls *)
Inductive meas_ev := Report (maximum avg total calls : Z).
Inductive meas_op := Start (now : Z) | Finish (now : Z) | Update (now : Z).
(* measure.py:31-39 update, 51-52 start, 55-68 finish *)
Definition meas_step (m : meas) (o : meas_op) : meas * list meas_ev :=
  match o with
  | Start now => (mkMeas (m_interval m) (m_last m) (m_value m) now (m_aggr m) (m_num m), [])
  | Finish now =>
      if m_start m =? 0 then (m, [])
      else
        let diff := now - m_start m in
        (mkMeas (m_interval m) (m_last m) (if m_value m <? diff then diff else m_value m) (m_start m) (m_aggr m + diff) (m_num m + 1), [])
  | Update now =>
      if m_last m + m_interval m <? now
      then (meas_reset (mkMeas (m_interval m) now (m_value m) (m_start m) (m_aggr m) (m_num m)),
            [Report (m_value m) (average m) (m_aggr m) (m_num m)])
      else (m, [])
  end.
