(* C112: the messages of a history, and rates. *)
From Verif.Lib Require Import Base.
From Verif.Model Require Import Traffic.
Local Open Scope list_scope.
Local Open Scope Z_scope.

Section Spec.
Context {message : Type}.
Fixpoint ins (h : list (event (message := message))) : list message := match h with [] => [] | In_ m :: h => m :: ins h | _ :: h => ins h end.
Fixpoint outs (h : list (event (message := message))) : list message := match h with [] => [] | Out m :: h => m :: outs h | _ :: h => outs h end.
Definition no_timer (h : list (event (message := message))) : Prop := forall now, ~ In (Timer now) h.
End Spec.
(* r messages per second are n messages in d milliseconds, rounded: r is at most one half away from n * 1000 / d *)
Definition per_second (n : nat) (d r : Z) : Prop := 2 * Z.abs (r * d - Z.of_nat n * 1000) <= d.
