(* C77: the life cycle of the emulator, seen from outside: calls of run() and stop(), timers, and what is observed. *)
From Verif.Lib Require Import Base.
From Verif.Model Require Import Runner.

Definition state_after (ops : list rop) : rstate := fst (run rstep rinit ops).
Definition observed (ops : list rop) : list robs := snd (run rstep rinit ops).
(* what is observed later on *)
Definition observed_then (ops ops2 : list rop) : list robs := snd (run rstep (state_after ops) ops2).

Definition is_call (o : rop) : bool := match o with RCall _ => true | _ => false end.
Definition is_return (e : robs) : bool := match e with Returned _ _ => true | _ => false end.
Definition calls_made (ops : list rop) : nat := length (filter is_call ops).
Definition all_returned (ops : list rop) : Prop := length (filter is_return (observed ops)) = calls_made ops.

(* run() and stop() are only called when all earlier calls have returned *)
Definition one_at_a_time (ops : list rop) : Prop := forall ops1 b ops2, ops = ops1 ++ RCall b :: ops2 -> all_returned ops1.
Definition no_calls (ops : list rop) : Prop := Forall (fun o => is_call o = false) ops.
Definition last_call (ops : list rop) (b : bool) : Prop := exists ops1 ops2, ops = ops1 ++ RCall b :: ops2 /\ no_calls ops2.
Definition no_ticks (es : list robs) : Prop := forall r, ~ In (Ticked r) es.
(* no start-up of a controller has raised an exception; no tick in a timer has *)
Definition starts_succeed (ops : list rop) : Prop := Forall (fun o => match o with RGoOn _ init_ok _ => init_ok = true | _ => True end) ops.
Definition ticks_succeed (ops : list rop) : Prop := Forall (fun o => match o with RTimer _ ok => ok = true | _ => True end) ops.
(* tick functions scheduled for a runner: each is one endless loop of ticks *)
Definition loops (s : rstate) (r : nat) : nat := pr_timers (rs_runner s r).
