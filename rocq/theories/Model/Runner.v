(* The life cycle of the web emulator: /repo/web/htdocs/js/PySwitchRunner.js (stop 342-353, run 367-408) and
   /repo/web/htdocs/python/PySwitchRunner.py (run 34-38, init 40-64, tick 211-228, stop 231-232).
   JavaScript runs one piece of code at a time; other code (timers, other calls) gets its turn at each await. Each call of run() or stop()
   is therefore a small program whose steps may be interleaved with those of other calls and with timers, in any order.
   Simplified: the several awaits between stop() and the creation of the runner (config.get(), Device.getInstance()) are one, and so are
   those between the creation and the start (the await at runPython, estimateClient(), the settings providers); coverage and the dontTick
   mode are for testing only and left out; what the controller does in a tick is in the other models. *)
From Verif.Lib Require Import Base.

(* A Python runner: running, triggerStop, and the number of its tick() functions waiting in set_timeout *)
Record prun := mkPrun { pr_running : bool; pr_trigger : bool; pr_timers : nat }.
Definition prun_new : prun := mkPrun false false 0.                                   (* PySwitchRunner.py:26-27 *)

(* Where a call stands: in the waiting loop of stop() (346-349), before creating the runner, with the created runner not assigned yet (384),
   before the start (401-407), finished *)
Inductive pc := Waiting | Fetching | Assigning (r : nat) | Starting | Finished.
Record call := mkCall { c_run : bool; c_pc : pc }.                                     (* c_run: a call of run(), otherwise of stop() *)

(* runners by number, the number of the next one, this.#runner, all calls made so far *)
Record rstate := mkRstate { rs_runner : nat -> prun; rs_next : nat; rs_cur : option nat; rs_calls : list call }.
Definition rinit : rstate := mkRstate (fun _ => prun_new) 0 None [].

Definition set_runner (f : nat -> prun) (r : nat) (p : prun) : nat -> prun := fun x => if (x =? r)%nat then p else f x.

(* What can be observed: a tick of a runner's controller; the end of a call (true: with an exception) *)
Inductive robs := Ticked (r : nat) | Returned (i : nat) (failed : bool).

(* What happens next: someone calls run() (true) or stop() (false); call i goes on after its await, where the start-up of the controller
   and the first tick succeed or raise an exception; a timer of runner r fires, and the tick succeeds or raises an exception *)
Inductive rop := RCall (run : bool) | RGoOn (i : nat) (init_ok tick_ok : bool) | RTimer (r : nat) (tick_ok : bool).

(* PySwitchRunner.py:54-61 the local function tick, 211-221: the next timer is set first, then the controller ticks; an exception sets
   triggerStop (216). An exception of display_driver.update() (223) leaves all as it is, like a successful tick. *)
Definition local_tick (p : prun) (tick_ok : bool) : prun * bool :=
  if pr_trigger p then (mkPrun false (pr_trigger p) (pr_timers p), false)
  else (mkPrun (pr_running p) (negb tick_ok) (S (pr_timers p)), true).

Fixpoint set_pc (cs : list call) (i : nat) (p : pc) : list call :=
  match cs, i with
  | [], _ => []
  | c :: cs', O => mkCall (c_run c) p :: cs'
  | c :: cs', S i' => c :: set_pc cs' i' p
  end.

(* 351-353: stop() ends; run() continues (372) *)
Definition after_stop (s : rstate) (i : nat) (is_run : bool) : rstate * list robs :=
  if is_run then (mkRstate (rs_runner s) (rs_next s) (rs_cur s) (set_pc (rs_calls s) i Fetching), [])
  else (mkRstate (rs_runner s) (rs_next s) (rs_cur s) (set_pc (rs_calls s) i Finished), [Returned i false]).
(* 346-351: the check of the waiting loop; this.#runner is whatever it is now *)
Definition wait_check (s : rstate) (i : nat) (is_run : bool) : rstate * list robs :=
  match rs_cur s with
  | Some r =>
      if pr_running (rs_runner s r) then (mkRstate (rs_runner s) (rs_next s) (rs_cur s) (set_pc (rs_calls s) i Waiting), [])
      else after_stop (mkRstate (rs_runner s) (rs_next s) None (rs_calls s)) i is_run
  | None => after_stop (mkRstate (rs_runner s) (rs_next s) None (rs_calls s)) i is_run
  end.

Definition rstep (s : rstate) (o : rop) : rstate * list robs :=
  match o with
  | RCall is_run =>                                                                     (* 342-347, 370 *)
      let i := length (rs_calls s) in
      let s1 := mkRstate (rs_runner s) (rs_next s) (rs_cur s) (rs_calls s ++ [mkCall is_run Waiting]) in
      match rs_cur s1 with
      | None => after_stop s1 i is_run
      | Some r =>
          let p := rs_runner s1 r in
          wait_check (mkRstate (set_runner (rs_runner s1) r (mkPrun (pr_running p) true (pr_timers p))) (rs_next s1) (rs_cur s1) (rs_calls s1)) i is_run
      end
  | RGoOn i init_ok tick_ok =>
      match nth_error (rs_calls s) i with
      | None => (s, [])
      | Some c =>
          match c_pc c with
          | Finished => (s, [])
          | Waiting => wait_check s i (c_run c)                                         (* 346-349 *)
          | Fetching =>                                                                 (* 372-394 *)
              (mkRstate (set_runner (rs_runner s) (rs_next s) prun_new) (S (rs_next s)) (rs_cur s) (set_pc (rs_calls s) i (Assigning (rs_next s))), [])
          | Assigning r => (mkRstate (rs_runner s) (rs_next s) (Some r) (set_pc (rs_calls s) i Starting), [])      (* 384 *)
          | Starting =>
              let cs := set_pc (rs_calls s) i Finished in
              match rs_cur s with
              | None => (mkRstate (rs_runner s) (rs_next s) None cs, [Returned i true])                            (* TypeError at 406 *)
              | Some r =>
                  let p := mkPrun true false (pr_timers (rs_runner s r)) in                                        (* py 35-36 *)
                  if init_ok then
                    let '(p1, ticked) := local_tick p tick_ok in                                                   (* py 63-64 *)
                    (mkRstate (set_runner (rs_runner s) r p1) (rs_next s) (Some r) cs, (if ticked then [Ticked r] else []) ++ [Returned i (negb tick_ok)])
                  else (mkRstate (set_runner (rs_runner s) r p) (rs_next s) (Some r) cs, [Returned i true])       (* py 49-52 raise *)
              end
          end
      end
  | RTimer r tick_ok =>
      let p := rs_runner s r in
      match pr_timers p with
      | O => (s, [])                                                                    (* nothing scheduled *)
      | S n =>
          let '(p1, ticked) := local_tick (mkPrun (pr_running p) (pr_trigger p) n) tick_ok in
          (mkRstate (set_runner (rs_runner s) r p1) (rs_next s) (rs_cur s) (rs_calls s), if ticked then [Ticked r] else [])
      end
  end.
