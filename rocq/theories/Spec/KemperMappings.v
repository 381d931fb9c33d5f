(* C63: the parameters of the device, independent of message addresses *)
From Coq Require Import String.
From Verif.Lib Require Import Base.
From Verif.Model Require Import Midi Mapping Client KemperMappings.
From Verif.Spec Require Import Mapping Client ClientSafe.
Open Scope Z_scope.

(* The delay and the reverb block can be addressed with or without spillover; it is the same block. *)
Definition block (s : slot) : slot :=
  match s with SlotDLYns => SlotDLY | SlotREVns => SlotREV | other => other end.

(* Which quantity of the device a parameter reports. Both morph parameters report the morph state; everything about rigs
   and banks reports the number of the current rig. All other parameters report their own quantity. *)
Definition reports (p : kparam) : kparam :=
  match p with
  | EffectState s => EffectState (block s)
  | EffectType s => EffectType (block s)
  | DlyRevMix s => DlyRevMix (block s)
  | RotarySpeed s => RotarySpeed (block s)
  | Freeze s => Freeze (block s)
  | MorphButton | MorphPedal => MorphButton
  | RigId | NextBank | PrevBank | SelectRig _ | SelectBank => RigId
  | other => other
  end.
(* Which quantity of the device a parameter changes when it is set. Switching a block off with and without spillover are
   two commands; the morph button and the pedal too; selecting rigs and banks are all different. *)
Definition changes (p : kparam) : kparam :=
  match p with
  | DlyRevMix s => DlyRevMix (block s)
  | RotarySpeed s => RotarySpeed (block s)
  | Freeze s => Freeze (block s)
  | other => other
  end.

(* The fresh mapping of a parameter; [date] is the object of the rig date. *)
Definition kmapping (p : kparam) (date : nat) : mapping := new_mapping (kargs p date).

(* The device answers a request for page and number with the response function for numbers (two bytes) or strings
   (characters, and a final zero), the same page and number, and its own product and device byte. *)
Inductive answers : msg -> value -> msg -> Prop :=
| answers_number man p d i page number p' d' hi lo :
    answers (SysEx man [p; d; 0x41; i; page; number]) (VNum (128 * hi + lo)) (SysEx man [p'; d'; 0x01; i; page; number; hi; lo])
| answers_string man p d i page number p' d' chars :
    answers (SysEx man [p; d; 0x43; i; page; number]) (VStr chars) (SysEx man ([p'; d'; 0x03; i; page; number] ++ chars ++ [0])).

(* The mappings of a client, by object number. Numbers that were never handed out are unused. *)
Definition unused : mapping := mkMapping ""%string TNone TNone TNone None Numeric None false None.
Definition objects (r : registry) (m : mid) : mapping := nth m r unused.
