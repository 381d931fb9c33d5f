(* controller/controller.py:34-195 Controller (processing loop), misc.py:62-84 Updater *)
From Verif.Lib Require Import Base.
From Verif.Model Require Import Midi Period.

(* What the controller does to the objects around it: process() of the i-th input, a call of receive() of the MIDI layer with
   its result, client.receive(x), update() of an updateable. CStuck is the out-of-fuel value of the model. *)
Inductive cevent := CPoll (i : nat) | CTake (x : option msg) | CGive (x : option msg) | CUpdate (u : nat) | CStuck.

(* The MIDI layer: [mi n] is what its n-th receive() returns (None: nothing there). *)
Definition midi_in := nat -> option msg.

(* controller.py:34-117. Kept: number of inputs (106-112), limit (51), period (92-94), updateables (misc.py:64), clearBuffers (70).
   Simplification: without debugStats (57-62, 170-178), which adds one updateable and calls start()/finish() of a measurement. *)
Record ctl := mkCtl { c_inputs : nat; c_max : Z; c_period : period; c_upd : list nat; c_clear : bool; c_pos : nat }.

Definition with_pos (c : ctl) (p : nat) : ctl := mkCtl (c_inputs c) (c_max c) (c_period c) (c_upd c) (c_clear c) p.
Definition with_period (c : ctl) (p : period) : ctl := mkCtl (c_inputs c) (c_max c) p (c_upd c) (c_clear c) (c_pos c).

(* controller.py:174-175 *)
Definition poll_inputs (c : ctl) : list cevent := map CPoll (seq 0 (c_inputs c)).

(* controller.py:169-187: the loop, [cnt] messages read so far *)
Fixpoint receive_loop (fuel : nat) (mi : midi_in) (c : ctl) (cnt : Z) : ctl * list cevent :=
  match fuel with
  | O => (c, [CStuck])
  | S f =>
      let x := mi (c_pos c) in
      let c1 := with_pos c (S (c_pos c)) in
      let e := poll_inputs c ++ [CTake x; CGive x] in
      let cnt1 := cnt + 1 in
      if match x with None => true | Some _ => false end || (c_max c <? cnt1) then (c1, e)
      else let '(c2, e2) := receive_loop f mi c1 cnt1 in (c2, e ++ e2)
  end.

(* controller.py:166-187 __receive_midi_messages *)
Definition receive_midi (mi : midi_in) (c : ctl) : ctl * list cevent :=
  receive_loop (S (Z.to_nat (c_max c))) mi c 0.

(* controller.py:146-150. Simplification: update() of an updateable does not register further updateables. *)
Fixpoint update_all (mi : midi_in) (c : ctl) (us : list nat) : ctl * list cevent :=
  match us with
  | [] => (c, [])
  | u :: us' =>
      let '(c1, e1) := receive_midi mi c in
      let '(c2, e2) := update_all mi c1 us' in
      (c2, e1 ++ CUpdate u :: e2)
  end.

(* controller.py:143-157 tick *)
Definition tick (mi : midi_in) (c : ctl) (now : Z) : ctl * list cevent :=
  let '(due, p) := p_exceeded (c_period c) now in
  let c0 := with_period c p in
  let '(c1, e1) := if due then update_all mi c0 (c_upd c0) else (c0, []) in
  let '(c2, e2) := receive_midi mi c1 in
  (c2, e1 ++ e2).

(* misc.py:67-74 add_updateable; [ok]: the object is an Updateable *)
Definition add_updateable (c : ctl) (ok : bool) (u : nat) : ctl :=
  if negb ok then c
  else if existsb (Nat.eqb u) (c_upd c) then c
  else mkCtl (c_inputs c) (c_max c) (c_period c) (c_upd c ++ [u]) (c_clear c) (c_pos c).

(* controller.py:137-140: while True, receive() until nothing is there *)
Fixpoint drain (fuel : nat) (mi : midi_in) (c : ctl) : ctl * list cevent :=
  match fuel with
  | O => (c, [CStuck])
  | S f =>
      let x := mi (c_pos c) in
      let c1 := with_pos c (S (c_pos c)) in
      match x with
      | None => (c1, [CTake x])
      | Some _ => let '(c2, e2) := drain f mi c1 in (c2, CTake x :: e2)
      end
  end.

(* controller.py:120-140 init, without the display and memory statistics. The loop has no bound in the code: [fuel] stands for
   how long one is prepared to wait. *)
Definition init (fuel : nat) (mi : midi_in) (c : ctl) : ctl * list cevent :=
  if c_clear c then drain fuel mi c else (c, []).

(* A history of ticks and registrations, with the events of each *)
Inductive cop := Tick (now : Z) | Add (ok : bool) (u : nat).
Definition cstep (mi : midi_in) (c : ctl) (o : cop) : ctl * list (cop * list cevent) :=
  match o with
  | Tick now => let '(c1, e) := tick mi c now in (c1, [(o, e)])
  | Add ok u => (add_updateable c ok u, [(o, [])])
  end.

(* controller.py:79-87 get_num_pixels over the pixel tuples of the inputs *)
Definition num_pixels (pixels : list (list Z)) : Z :=
  fold_left (fun ret ps => fold_left (fun ret p => if ret <? p + 1 then p + 1 else ret) ps ret) pixels 0.

(* controller.py:34-117: a new controller, before anything is registered *)
Definition new_ctl (inputs : nat) (limit interval : Z) (clear : bool) : ctl := mkCtl inputs limit (new_period interval) [] clear 0.
