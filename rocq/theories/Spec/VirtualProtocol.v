(* C78: the firmware and the virtual Kemper in a closed loop. *)
From Verif.Lib Require Import Base.
From Verif.Model Require Import Midi Protocol Codec VirtualProtocol.
From Verif.Spec Require Import Protocol.

Definition time (o : lop) : Z := match o with LPUpdate t | LPRead t | LVUpdate t | LVParse t | LPSay t _ | LVSay t _ => t end.

(* The other messages on the two wires are no messages of the protocol itself: neither beacons nor sensing messages *)
Definition is_beacon (m : list Z) : Prop := exists rest, m = [240; 0; 32; 51; 2; 127; 126; 0; 64] ++ rest.
Definition other (o : lop) : Prop :=
  match o with LPSay _ m => ~ is_beacon m | LVSay _ m => ~ sensing (bytes_msg m) | _ => True end.

(* Any schedule at all: only the clock does not run backwards *)
Fixpoint clocked (now : Z) (ops : list lop) : Prop :=
  match ops with
  | [] => True
  | o :: ops' => now <= time o /\ other o /\ clocked (time o) ops'
  end.
Definition end_of (now : Z) (ops : list lop) : Z := fold_left (fun _ o => time o) ops now.

(* How fast things go: the firmware and the virtual device update at least every [every_p] resp. [every_v] milliseconds, and a message is
   delivered after [takes] milliseconds at the latest *)
Record pace := mkPace { every_p : Z; every_v : Z; takes : Z }.

(* A schedule that keeps this pace from the time [from] on: nothing happens too late. [last_p], [last_v]: the last updates. Messages
   already on the way at the beginning count as sent at the time [from]. *)
Fixpoint paced (c : pace) (from now last_p last_v : Z) (s : loop) (ops : list lop) : Prop :=
  match ops with
  | [] => True
  | o :: ops' =>
      now <= time o /\ other o /\
      time o <= last_p + every_p c /\ time o <= last_v + every_v c /\
      Forall (fun e => time o <= Z.max from (fst e) + takes c) (to_v s ++ to_p s) /\
      paced c from (time o) (match o with LPUpdate t => t | _ => last_p end) (match o with LVUpdate t => t | _ => last_v end)
            (fst (l_step s o)) ops'
  end.
Definition keeps_pace (c : pace) (from : Z) (s : loop) (ops : list lop) : Prop := paced c from from from from s ops.

(* The pace is fast enough for a lease of that many seconds *)
Definition fast_enough (lease : Z) (c : pace) : Prop :=
  6 <= lease <= 255 /\ 0 <= every_p c /\ 0 <= every_v c /\ 0 <= takes c /\
  500 + every_v c + takes c <= 1500 /\
  500 * lease + 500 + every_p c + every_v c + 2 * takes c <= 2000 * (lease / 2).

(* After this time the connection must be there *)
Definition settle (lease : Z) (c : pace) : Z := 500 * lease + 2500 + 3 * every_p c + 2 * every_v c + 4 * takes c.
Definition settle_fresh (c : pace) : Z := 5500 + every_p c + every_v c + 2 * takes c.

Definition loop_after (s : loop) (ops : list lop) : loop := fst (run l_step s ops).
Definition loop_events (s : loop) (ops : list lop) : list pevent := snd (run l_step s ops).

(* Both sides are connected, with the parameter set the firmware asks for *)
Definition both_connected (s : loop) : Prop := running (l_p s) = true /\ v_on (l_v s) = true /\ v_set (l_v s) = Some 2.
Definition lost_in (evs : list pevent) : Prop := exists t, In (POffline t) evs.
(* Somewhere in the schedule it is later than that *)
Definition lasts_beyond (t : Z) (ops : list lop) : Prop := exists o, In o ops /\ t < time o.

(* The virtual device got a beacon at the time t *)
Definition got_beacon (s : loop) (ops : list lop) (t : Z) : Prop :=
  exists o1 o2 st m q, ops = o1 ++ LVParse t :: o2 /\ to_v (loop_after s o1) = (st, m) :: q /\ is_beacon m.
