(* controller/client.py:523-585 BidirectionalClient with its protocol, clients/kemper/__init__.py:586-735 KemperBidirectionalProtocol: how the
   two objects call each other. The client (Client.v: [register], [set_param], [connection_lost] take the mappings handled by the protocol) and
   the protocol (Protocol.v) are the models of the single classes; this file is the wiring only. *)
From Coq Require Import String.
From Verif.Lib Require Import Base.
From Verif.Model Require Import Midi Period Mapping Client Protocol KemperMappings.

Record bidev := mkBidev { bd_client : client; bd_proto : protocol }.

(* The calls from outside: callbacks and actions (register, request, set, assignments to mapping.value), the main loop (receive, update). *)
Inductive bdop :=
| BRegister (now : Z) (m : mid) (l : option ext)
| BRequest (now : Z) (m : mid) (l : option ext)
| BSet (now : Z) (m : mid) (a : setarg)
| BAssign (m : mid) (v : option value)
| BReceive (now : Z) (x : option msg)
| BUpdate (now : Z).

Inductive bdev := OfClient (e : event) | OfProto (e : pevent).

(* client.py:547-551: the message was not parsed by the client *)
Definition unparsed (evs : list event) : bool := existsb (fun e => match e with EvUnused _ => true | _ => false end) evs.

(* kemper/__init__.py:644-648: what protocol.update asks for is done in order; [PLost] is the call of notify_connection_lost (client.py:582-585) *)
Fixpoint do_proto (bi : mid -> bool) (c : client) (pevs : list pevent) : res (client * list bdev) :=
  match pevs with
  | [] => Ok (c, [])
  | e :: pevs' =>
      match match e with PLost _ => cstep bi c Lost | _ => Ok (c, []) end with
      | Raise => Raise
      | Ok (c1, e1) => match do_proto bi c1 pevs' with
                       | Raise => Raise
                       | Ok (c2, e2) => Ok (c2, OfProto e :: map OfClient e1 ++ e2)
                       end
      end
  end.

Definition bcall (bi : mid -> bool) (s : bidev) (o : op) : res (bidev * list bdev) :=
  match cstep bi (bd_client s) o with
  | Raise => Raise
  | Ok (c, ev) => Ok (mkBidev c (bd_proto s), map OfClient ev)
  end.

Definition bdstep (bi : mid -> bool) (s : bidev) (o : bdop) : res (bidev * list bdev) :=
  match o with
  | BRegister now m l => bcall bi s (Register now m l)
  | BRequest now m l => bcall bi s (Request now m l)
  | BSet now m a => bcall bi s (Set_ now m a)
  | BAssign m v => bcall bi s (Assign m v)
  | BReceive now x =>                                                 (* 542-561 *)
      match cstep bi (bd_client s) (Receive now x) with
      | Raise => Raise
      | Ok (c, ev) =>
          match x with
          | None => Ok (mkBidev c (bd_proto s), map OfClient ev)      (* 553-554 *)
          | Some y =>
              if unparsed ev then
                let '(p, pev, _) := p_receive (bd_proto s) now y in    (* 556 *)
                Ok (mkBidev c p, map OfClient ev ++ map OfProto pev)
              else Ok (mkBidev c (bd_proto s), map OfClient ev)       (* 550-551 *)
          end
      end
  | BUpdate now =>                                                    (* 578-579 *)
      let '(p, pevs) := p_update (bd_proto s) now in
      match do_proto bi (bd_client s) pevs with
      | Raise => Raise
      | Ok (c, evs) => Ok (mkBidev c p, evs)
      end
  end.

Fixpoint bdrun (bi : mid -> bool) (s : bidev) (ops : list bdop) : res (bidev * list (list bdev)) :=
  match ops with
  | [] => Ok (s, [])
  | o :: ops' =>
      match bdstep bi s o with
      | Raise => Raise
      | Ok (s1, e1) => match bdrun bi s1 ops' with
                       | Raise => Raise
                       | Ok (s2, es) => Ok (s2, e1 :: es)
                       end
      end
  end.

(* 525-530; kemper/__init__.py:591-617 *)
Definition bdinit (maps0 : mid -> mapping) (lifetime lease : Z) (tuner : bool) (t0 : Z) : bidev :=
  mkBidev (init_client maps0 lifetime) (new_protocol lease tuner t0).

(* kemper/__init__.py:555-582 _PARAMETER_SET_2, _SELECTED_PARAMETER_SET *)
Definition parameter_set_2 : list kparam :=
  [EffectType SlotA; EffectState SlotA; EffectType SlotB; EffectState SlotB; EffectType SlotC; EffectState SlotC;
   EffectType SlotD; EffectState SlotD; EffectType SlotX; EffectState SlotX; EffectType SlotMOD; EffectState SlotMOD;
   RigName; TunerMode; TunerNote; TunerDeviance].
(* 625-626 is_bidirectional. The code compares objects; here the names, which tell the objects of the registry apart (C63_objects). *)
Definition is_bidirectional (r : registry) (m : mid) : bool :=
  match nth_error r m with
  | Some x => existsb (fun p => String.eqb (k_name (kemper p)) (name x)) parameter_set_2
  | None => false
  end.
