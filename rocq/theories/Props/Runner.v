(* C77: starting and stopping the web emulator. *)
From Verif.Lib Require Import Base.
From Verif.Model Require Import Runner.
From Verif.Spec Require Import Runner.
From Verif.Proofs Require Import Runner.

(* As long as run() and stop() are called one at a time, there is never more than one loop of ticks, of one runner. *)
Theorem C77_single_loop_partial : forall ops r r', one_at_a_time ops -> (loops (state_after ops) r <= 1)%nat
  /\ ((0 < loops (state_after ops) r)%nat -> (0 < loops (state_after ops) r')%nat -> r = r').
Proof. exact single_loop. Qed.
Print Assumptions C77_single_loop_partial.

(* From the moment stop() is called, nothing ticks any more until the next call, whatever timers are still pending. *)
Theorem C77_stopped_partial : forall ops ops2, one_at_a_time (ops ++ [RCall false]) -> no_calls ops2 -> no_ticks (observed_then (ops ++ [RCall false]) ops2).
Proof. exact stop_silent. Qed.
Print Assumptions C77_stopped_partial.

(* Likewise after a tick has raised an exception. *)
Theorem C77_crashed : forall ops r ops2, one_at_a_time ops -> In (Ticked r) (snd (rstep (state_after ops) (RTimer r false))) -> no_calls ops2 ->
  no_ticks (observed_then (ops ++ [RTimer r false]) ops2).
Proof. exact crash_silent. Qed.
Print Assumptions C77_crashed.

(* After run() has returned without exception, and as long as no tick raises one, there is always a timer waiting which ticks. *)
Theorem C77_keeps_ticking : forall ops1 ops2, one_at_a_time (ops1 ++ RCall true :: ops2) -> no_calls ops2 -> ticks_succeed ops2 ->
  In (Returned (calls_made ops1) false) (observed (ops1 ++ RCall true :: ops2)) ->
  exists r, forall ok, snd (rstep (state_after (ops1 ++ RCall true :: ops2)) (RTimer r ok)) = [Ticked r].
Proof. exact keeps_ticking. Qed.
Print Assumptions C77_keeps_ticking.

(* Every call of run() or stop() returns, as soon as one timer has fired and the call itself got its turn often enough, in any order and with
   anything else in between: proved if no start-up has raised an exception before. Missing for the full claim: see C77_faulty_start_refuted. *)
Theorem C77_returns_partial : forall ops b, one_at_a_time (ops ++ [RCall b]) -> starts_succeed ops -> let i := calls_made ops in
  exists r, forall ops2 t n x y, no_calls ops2 -> In (RTimer r t) ops2 -> (4 <= n)%nat ->
  exists f, In (Returned i f) (observed ((ops ++ [RCall b]) ++ ops2 ++ repeat (RGoOn i x y) n)).
Proof. exact call_returns. Qed.
Print Assumptions C77_returns_partial.

(* If the start-up raises an exception (a faulty configuration), no later call of run() or stop() ever returns, in any schedule. *)
Definition faulty : list rop := [RCall true; RGoOn 0 true true; RGoOn 0 true true; RGoOn 0 false true].
Theorem C77_faulty_start_refuted : exists ops, one_at_a_time ops /\ all_returned ops /\ forall ops2 i f, ~ In (Returned i f) (observed_then ops ops2).
Proof.
  exists faulty. split; [|split; [reflexivity|]].
  - intros ops1 b ops2 E. destruct ops1 as [|o ops1]; [reflexivity|]. exfalso. unfold faulty in E. injection E as _ E.
    repeat (destruct ops1 as [|? ops1]; [discriminate|injection E as _ E]). destruct ops1; discriminate.
  - intros ops2. unfold observed_then. apply stuck_run. exists 0%nat. repeat split.
    intros i c H. vm_compute in H. destruct i as [|[|i]]; [injection H as <-; auto|discriminate|discriminate].
Qed.
Print Assumptions C77_faulty_start_refuted.

(* If run() is called again before it has returned (two configurations loaded in quick succession), one of the runners can get out of reach: it
   goes on ticking forever, although stop() has been called and has returned, and whatever is called afterwards. *)
Definition overlap : list rop :=
  [RCall true; RCall true; RGoOn 0 true true; RGoOn 0 true true; RGoOn 0 true true; RGoOn 1 true true; RGoOn 1 true true; RGoOn 1 true true;
   RCall false; RTimer 1 true; RGoOn 2 true true].
Theorem C77_overlap_refuted : exists ops r, all_returned ops /\ last_call ops false /\
  forall ops2, ~ In (RTimer r false) ops2 -> snd (rstep (state_after (ops ++ ops2)) (RTimer r true)) = [Ticked r].
Proof.
  exists overlap, 0%nat. split; [reflexivity|]. split.
  - exists (firstn 8 overlap), [RTimer 1 true; RGoOn 2 true true]. split; [reflexivity|]. repeat constructor.
  - intros ops2 H. rewrite state_app. apply orphan_ticks; [|assumption]. repeat split; try (vm_compute; congruence); try (vm_compute; lia).
    intros i c E. vm_compute in E. destruct i as [|[|[|i]]]; try (injection E as <-; discriminate); destruct i; discriminate.
Qed.
Print Assumptions C77_overlap_refuted.

(* Run, tick three times, stop, run again *)
Example C77_ex : observed [RCall true; RGoOn 0 true true; RGoOn 0 true true; RGoOn 0 true true; RTimer 0 true; RTimer 0 true; RCall true; RTimer 0 true;
    RGoOn 1 true true; RGoOn 1 true true; RGoOn 1 true true; RGoOn 1 true true; RTimer 0 true; RTimer 1 true]
  = [Ticked 0; Returned 0 false; Ticked 0; Ticked 0; Ticked 1; Returned 1 false; Ticked 1].
Proof. reflexivity. Qed.
(* The conditions of C77_keeps_ticking and C77_crashed are met *)
Example C77_ex_running : let ops := [RCall true; RGoOn 0 true true; RGoOn 0 true true; RGoOn 0 true true; RTimer 0 true] in
  one_at_a_time ops /\ In (Returned 0 false) (observed ops) /\ In (Ticked 0) (snd (rstep (state_after ops) (RTimer 0 false))).
Proof.
  cbv zeta. split; [|split; [vm_compute; auto|vm_compute; auto]].
  intros ops1 b ops2 E. destruct ops1 as [|o ops1]; [reflexivity|]. exfalso. injection E as _ E.
  repeat (destruct ops1 as [|? ops1]; [discriminate|injection E as _ E]). destruct ops1; discriminate.
Qed.
