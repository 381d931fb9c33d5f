(* misc.py:104-131  class PeriodCounter *)
From Verif.Lib Require Import Base.

(* misc.py:109-112: [interval] is already an int, [last_reset] starts at 0. *)
Record period := mkPeriod { interval : Z; last_reset : Z }.

(* misc.py:109-112 __init__. Simplification: the argument of [int(...)] is passed as an integer. *)
Definition new_period (i : Z) : period := mkPeriod i 0.

(* misc.py:115-116 reset; [now] is the reading of get_current_millis() (misc.py:19-20). *)
Definition p_reset (p : period) (now : Z) : period := mkPeriod (interval p) now.

(* misc.py:119-121 passed *)
Definition p_passed (p : period) (now : Z) : Z := now - last_reset p.

(* misc.py:125-131 exceeded: reports and, if it reports, also resets. *)
Definition p_exceeded (p : period) (now : Z) : bool * period :=
  if last_reset p + interval p <? now then (true, mkPeriod (interval p) now) else (false, p).

(* A history of calls on one counter. The emitted event is what [exceeded] returned, with the time. *)
Inductive period_op := ResetAt (t : Z) | CheckAt (t : Z).
Inductive period_ev := WasReset (t : Z) | Reported (t : Z) (r : bool).

Definition period_step (p : period) (o : period_op) : period * list period_ev :=
  match o with
  | ResetAt t => (p_reset p t, [WasReset t])
  | CheckAt t => let '(r, p') := p_exceeded p t in (p', [Reported t r])
  end.
