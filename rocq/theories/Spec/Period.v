(* Specification of a period counter, in terms of the visible call history only. *)
From Verif.Lib Require Import Base.
From Verif.Model Require Import Period.

(* The time of the latest reset or reported expiry in a history (oldest call first), or [start]. *)
Fixpoint last_mark (start : Z) (h : list period_ev) : Z :=
  match h with
  | [] => start
  | WasReset t :: h' => last_mark t h'
  | Reported t true :: h' => last_mark t h'
  | Reported t false :: h' => last_mark start h'
  end.

Definition ev_time (e : period_ev) : Z := match e with WasReset t => t | Reported t _ => t end.

(* The clock does not run backwards along the history. *)
Fixpoint clock_monotone (from : Z) (h : list period_ev) : Prop :=
  match h with
  | [] => True
  | e :: h' => from <= ev_time e /\ clock_monotone (ev_time e) h'
  end.
