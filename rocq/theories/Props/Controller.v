(* C19 - C21, C59: the processing loop. *)
From Verif.Lib Require Import Base.
From Verif.Model Require Import Midi Period Controller.
From Verif.Spec Require Import Controller.
From Verif.Proofs Require Import Controller.
Open Scope nat_scope.

(* A backlog of five messages, then nothing, then one more *)
Definition ex_mi : midi_in := fun n => if n <? 5 then Some (PC (Z.of_nat n)) else if n =? 7 then Some (CC 1 2) else None.
Definition ex_ops : list cop := [Add true 4; Add true 2; Add false 9; Add true 4; Tick 100; Tick 250; Tick 300; Tick 460].

(* ---- C19 ---- *)

(* One pass is a number of rounds (every input, then one message taken and given to the client), at most limit+1 and fewer
   only when the MIDI layer had no message. *)
Theorem C19_pass_exact : forall mi c c' e, receive_midi mi c = (c', e) ->
  exists k, c' = with_pos c (c_pos c + k) /\ pass (c_inputs c) (c_max c) mi (c_pos c) k e.
Proof. exact receive_spec. Qed.
Print Assumptions C19_pass_exact.

(* Over any history of ticks, what the client was given is what the MIDI layer returned, in order, from the first call to the
   last; the loop never runs on. *)
Theorem C19_nothing_lost : forall mi c ops c' h, run (cstep mi) c ops = (c', h) ->
  c_pos c <= c_pos c' /\ taken (all_events h) = returned mi (c_pos c) (c_pos c' - c_pos c) /\ given (all_events h) = returned mi (c_pos c) (c_pos c' - c_pos c) /\
  c_inputs c' = c_inputs c /\ c_max c' = c_max c /\ ~ stuck (all_events h).
Proof. exact run_pos. Qed.
Print Assumptions C19_nothing_lost.

Example C19_ex : let e := snd (receive_midi ex_mi (new_ctl 2 3 200 true)) in
  pass 2 3 ex_mi 0 4 e /\ e = round 2 (Some (PC 0)) ++ round 2 (Some (PC 1)) ++ round 2 (Some (PC 2)) ++ round 2 (Some (PC 3)).
Proof.
  cbv zeta. split; [|reflexivity]. split; [reflexivity|]. split; [lia|]. split; [right; lia|]. split; [|lia].
  intros i H1 H2. unfold ex_mi. destruct (Nat.ltb_spec i 5); [discriminate|lia].
Qed.
Example C19_ex_history : let h := snd (run (cstep ex_mi) (new_ctl 1 3 200 true) ex_ops) in
  given (all_events h) = [Some (PC 0); Some (PC 1); Some (PC 2); Some (PC 3); Some (PC 4); None; None; Some (CC 1 2); None; None; None; None; None].
Proof. reflexivity. Qed.

(* ---- C20 ---- *)

(* The shape of every tick: if more than the interval has passed, for each updateable a pass and its update, then one pass. *)
Theorem C20_tick_exact : forall mi c now c' e, tick mi c now = (c', e) ->
  exists due p1 k e1 e2, due = (last_reset (c_period c) + interval (c_period c) <? now)%Z /\
    e = e1 ++ e2 /\
    (if due then updating (c_inputs c) (c_max c) mi (c_pos c) (c_upd c) p1 e1 else p1 = c_pos c /\ e1 = []) /\
    pass (c_inputs c) (c_max c) mi p1 k e2 /\
    c' = mkCtl (c_inputs c) (c_max c) (mkPeriod (interval (c_period c)) (if due then now else last_reset (c_period c))) (c_upd c) (c_clear c) (p1 + k).
Proof. exact tick_spec. Qed.
Print Assumptions C20_tick_exact.

(* In any history since the start, a tick updates everything registered so far, each once and in order of first registration,
   if it comes more than the interval after the last tick that did so; otherwise it updates nothing. *)
Theorem C20_updates_exact : forall mi inputs limit i clear ops1 now ops2 c h, run (cstep mi) (new_ctl inputs limit i clear) (ops1 ++ Tick now :: ops2) = (c, h) ->
  exists h1 e h2, h = h1 ++ (Tick now, e) :: h2 /\ length h1 = length ops1 /\
    updated e = (if (last_update i ops1 + i <? now)%Z then firsts (added ops1) else []).
Proof. exact history_ticks. Qed.
Print Assumptions C20_updates_exact.

Theorem C20_registered_once : forall l, NoDup (firsts l) /\ forall u, In u (firsts l) <-> In u l.
Proof. exact firsts_facts. Qed.
Print Assumptions C20_registered_once.

(* Consecutive updates are more than the interval apart, whatever the clock does. *)
Theorem C20_updates_apart : forall mi inputs limit i clear ops c h h1 a e1 h2 b e2 h3, run (cstep mi) (new_ctl inputs limit i clear) ops = (c, h) ->
  h = h1 ++ (Tick a, e1) :: h2 ++ (Tick b, e2) :: h3 -> updated e1 <> [] -> updated e2 <> [] -> (forall x, In x h2 -> updated (snd x) = []) ->
  (a + i < b)%Z.
Proof. exact updates_apart. Qed.
Print Assumptions C20_updates_apart.

Example C20_ex : map (fun x => updated (snd x)) (snd (run (cstep ex_mi) (new_ctl 1 3 200 true) ex_ops)) = [[]; []; []; []; []; [4; 2]; []; [4; 2]].
Proof. reflexivity. Qed.
Example C20_ex_due : due_times 200 0 (tick_times ex_ops) = [250; 460]%Z.
Proof. reflexivity. Qed.

(* ---- C21 ---- *)

(* When initialisation is over, it has given nothing to the client; with clearing it has taken everything up to and including
   the first empty read and nothing more, without it has taken nothing. *)
Theorem C21_drains : forall fuel mi c c' e, init fuel mi c = (c', e) -> ~ stuck e ->
  given e = [] /\
  (c_clear c = false -> c' = c /\ e = []) /\
  (c_clear c = true -> exists k, c' = with_pos c (c_pos c + k + 1) /\ e = map CTake (returned mi (c_pos c) (k + 1)) /\
     mi (c_pos c + k) = None /\ forall j, c_pos c <= j -> j < c_pos c + k -> mi j <> None).
Proof. exact init_spec. Qed.
Print Assumptions C21_drains.

(* Initialisation comes to an end exactly if the MIDI layer is found empty at some time: a device that never pauses keeps the
   application from starting. *)
Theorem C21_returns_iff : forall mi c, c_clear c = true ->
  ((exists fuel, ~ stuck (snd (init fuel mi c))) <-> exists k, c_pos c <= k /\ mi k = None).
Proof. exact init_returns. Qed.
Print Assumptions C21_returns_iff.

Example C21_ex : init 6 ex_mi (new_ctl 1 3 200 true) = (with_pos (new_ctl 1 3 200 true) 6, map CTake [Some (PC 0); Some (PC 1); Some (PC 2); Some (PC 3); Some (PC 4); None]).
Proof. reflexivity. Qed.

(* ---- C59 ---- *)

(* The LED strip has room for every assigned pixel and is not larger than the highest one needs. *)
Theorem C59_pixels : forall pss, (0 <= num_pixels pss)%Z /\ (forall ps p, In ps pss -> In p ps -> (p < num_pixels pss)%Z) /\
  (num_pixels pss = 0%Z \/ exists ps p, In ps pss /\ In p ps /\ num_pixels pss = (p + 1)%Z).
Proof. exact num_pixels_spec. Qed.
Print Assumptions C59_pixels.
Example C59_ex : num_pixels [[0; 1; 2]; []; [9; 10; 11]; [3; 4; 5]]%Z = 12%Z.
Proof. reflexivity. Qed.
