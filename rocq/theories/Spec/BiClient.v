(* C65: what each of the two objects sees of a common history. *)
From Verif.Lib Require Import Base.
From Verif.Model Require Import Midi Period Mapping Client Protocol KemperMappings BiClient.
From Verif.Spec Require Import Mapping Client ClientSafe Protocol.

(* The protocol: all updates and all messages. *)
Definition proto_op (o : bdop) : list pop :=
  match o with BUpdate now => [PUpdate now] | BReceive now (Some x) => [PReceive now x] | _ => [] end.
Definition proto_ops (ops : list bdop) : list pop := flat_map proto_op ops.
Definition proto_evs (evs : list bdev) : list pevent := flat_map (fun e => match e with OfProto x => [x] | _ => [] end) evs.

(* The client: all calls, and an update as the loss of the connection if the protocol reported one. *)
Definition client_evs (evs : list bdev) : list event := flat_map (fun e => match e with OfClient x => [x] | _ => [] end) evs.
Definition reports_loss (evs : list bdev) : bool := existsb (fun e => match e with OfProto (PLost _) => true | _ => false end) evs.
Definition client_op (o : bdop) (evs : list bdev) : list op :=
  match o with
  | BRegister now m l => [Register now m l]
  | BRequest now m l => [Request now m l]
  | BSet now m a => [Set_ now m a]
  | BAssign m v => [Assign m v]
  | BReceive now x => [Receive now x]
  | BUpdate _ => if reports_loss evs then [Lost] else []
  end.
Fixpoint client_ops (ops : list bdop) (evs : list (list bdev)) : list op :=
  match ops, evs with
  | o :: ops', e :: evs' => client_op o e ++ client_ops ops' evs'
  | _, _ => []
  end.

(* No parameter is reported by the sensing messages of the device. *)
Definition sensing_free (maps0 : mid -> mapping) : Prop := forall m x, sensing x -> ~ hears x (maps0 m).

(* A history from the start, without an exception. *)
Definition bd_reached (bi : mid -> bool) (maps0 : mid -> mapping) (lifetime lease : Z) (tuner : bool) (t0 : Z) (ops : list bdop)
  (s : bidev) (evs : list (list bdev)) : Prop :=
  no_self_dependency maps0 /\ bdrun bi (bdinit maps0 lifetime lease tuner t0) ops = Ok (s, evs).

(* The conditions of C58, on the calls from outside. *)
Definition bd_call (o : bdop) : option op :=
  match o with
  | BRegister now m l => Some (Register now m l)
  | BRequest now m l => Some (Request now m l)
  | BSet now m a => Some (Set_ now m a)
  | BAssign m v => Some (Assign m v)
  | BReceive now x => Some (Receive now x)
  | BUpdate _ => None
  end.
Definition calls (ops : list bdop) : list op := flat_map (fun o => match bd_call o with Some c => [c] | None => [] end) ops.

(* No sensing message arrives. *)
Definition silent (ops : list bdop) : Prop := forall now x, In (BReceive now (Some x)) ops -> ~ sensing x.

(* The parameters the device reports by itself: type and state of the effect slots, but not of delay and reverb, the rig name and
   the tuner. *)
Definition reported (p : kparam) : Prop :=
  match p with
  | EffectState s | EffectType s => match s with SlotDLY | SlotDLYns | SlotREV | SlotREVns => False | _ => True end
  | RigName | TunerMode | TunerNote | TunerDeviance => True
  | _ => False
  end.
