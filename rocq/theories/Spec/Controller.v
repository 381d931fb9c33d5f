(* C19 - C21: independent notions for the processing loop. *)
From Verif.Lib Require Import Base.
From Verif.Model Require Import Midi Controller.

Definition taken (evs : list cevent) : list (option msg) := flat_map (fun e => match e with CTake x => [x] | _ => [] end) evs.
Definition given (evs : list cevent) : list (option msg) := flat_map (fun e => match e with CGive x => [x] | _ => [] end) evs.
Definition updated (evs : list cevent) : list nat := flat_map (fun e => match e with CUpdate u => [u] | _ => [] end) evs.
Definition stuck (evs : list cevent) : Prop := In CStuck evs.

(* What the MIDI layer returned in calls p, p+1, ..., p+n-1 *)
Definition returned (mi : midi_in) (p n : nat) : list (option msg) := map mi (seq p n).

(* A round: every input in order, then one message (or none) taken and given to the client *)
Definition round (inputs : nat) (x : option msg) : list cevent := map CPoll (seq 0 inputs) ++ [CTake x; CGive x].

(* A message pass from call [p] of the MIDI layer on, of [k] rounds: there is a message in each but maybe the last; at most
   limit+1 rounds (at least one); fewer only if the last had no message. *)
Definition pass (inputs : nat) (limit : Z) (mi : midi_in) (p k : nat) (evs : list cevent) : Prop :=
  evs = flat_map (round inputs) (returned mi p k) /\
  (1 <= k)%nat /\ (k = 1%nat \/ Z.of_nat k <= limit + 1) /\
  (forall i, (p <= i)%nat -> (i < p + k - 1)%nat -> mi i <> None) /\
  (Z.of_nat k < limit + 1 -> mi (p + k - 1)%nat = None).

(* Elements of a list in the order of their first occurrence *)
Fixpoint firsts (l : list nat) : list nat :=
  match l with [] => [] | x :: l' => x :: filter (fun y => negb (Nat.eqb y x)) (firsts l') end.

(* What was registered, in order *)
Definition added (ops : list cop) : list nat := flat_map (fun o => match o with Add true u => [u] | _ => [] end) ops.
Definition tick_times (ops : list cop) : list Z := flat_map (fun o => match o with Tick t => [t] | _ => [] end) ops.

(* Which ticks update, given the time of the last update: those more than the interval after it *)
Fixpoint due_times (interval last : Z) (ts : list Z) : list Z :=
  match ts with
  | [] => []
  | t :: ts' => if last + interval <? t then t :: due_times interval t ts' else due_times interval last ts'
  end.

(* The last update before: 0 (boot) if there was none *)
Definition last_update (interval : Z) (ops : list cop) : Z := last (due_times interval 0 (tick_times ops)) 0.

Definition all_events (h : list (cop * list cevent)) : list cevent := flat_map snd h.

(* An update from call [p] on: before each of the updateables a message pass, until call [p'] *)
Inductive updating (inputs : nat) (limit : Z) (mi : midi_in) : nat -> list nat -> nat -> list cevent -> Prop :=
| upd_nil p : updating inputs limit mi p [] p []
| upd_cons p u us k e p' e' : pass inputs limit mi p k e -> updating inputs limit mi (p + k) us p' e' ->
    updating inputs limit mi p (u :: us) p' (e ++ CUpdate u :: e').
