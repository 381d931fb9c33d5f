(* C14, C15: independent notions for the bidirectional protocol. *)
From Verif.Lib Require Import Base.
From Verif.Model Require Import Midi Protocol.

(* A sensing message of the device: manufacturer 00 20 33, function 7e, instance 00, page 7f *)
Inductive sensing : msg -> Prop :=
| sensing_intro a b rest : sensing (SysEx [0; 32; 51] (a :: b :: 126 :: 0 :: 127 :: rest)).

Definition is_init (e : pevent) : bool := match e with PSend _ i _ => i | _ => false end.
Definition is_keepalive (e : pevent) : bool := match e with PSend _ i _ => negb i | _ => false end.
Definition is_online (e : pevent) : bool := match e with POnline _ => true | _ => false end.
Definition is_offline (e : pevent) : bool := match e with POffline _ => true | _ => false end.
Definition p_time (e : pevent) : Z := match e with PSend t _ _ | PLost t | POnline t | POffline t => t end.

(* connected according to the events: the last change was to online *)
Definition connected (evs : list pevent) : bool :=
  fold_left (fun c e => match e with POnline _ => true | POffline _ => false | _ => c end) evs false.

(* Two events of some kind following each other directly, ignoring the others *)
Definition consecutive (kind : pevent -> bool) (evs : list pevent) (a b : pevent) : Prop :=
  exists e1 e2 e3, evs = e1 ++ a :: e2 ++ b :: e3 /\ kind a = true /\ kind b = true /\ Forall (fun e => kind e = false) e2.

(* The last sensing message among the operations arrived at [t] *)
Definition last_sensed (ops : list pop) (t : Z) : Prop :=
  exists o1 x o2, ops = o1 ++ PReceive t x :: o2 /\ sensing x /\
    Forall (fun o => match o with PReceive _ y => ~ sensing y | _ => True end) o2.

(* Bit [i] of a byte *)
Definition bit (b : Z) (i : Z) : bool := Z.testbit b i.

Definition is_lost (e : pevent) : bool := match e with PLost _ => true | _ => false end.

(* The time of the last event of some kind; 0 (the boot time of the counters) if there was none *)
Definition last_time (kind : pevent -> bool) (evs : list pevent) : Z :=
  fold_left (fun t e => if kind e then p_time e else t) evs 0.
Definition is_alive (e : pevent) : bool := is_keepalive e || is_online e.

(* A history of the protocol, created at time [t0] *)
Definition p_reached (lease : Z) (tuner : bool) (t0 : Z) (ops : list pop) (p : protocol) (evs : list pevent) : Prop :=
  run pstep (new_protocol lease tuner t0) ops = (p, evs).

(* The beacon messages (C15 says what is in them) *)
Definition the_beacon (lease : Z) (tuner init : bool) : msg :=
  SysEx [0; 32; 51] [2; 127; 126; 0; 64; 2; get_flags init true false false false tuner; Z.quot lease 2].
