(* clients/kemper/__init__.py:264-547 and clients/kemper/mappings/: the parameters of the device and the messages by
   which they are set, requested and answered. *)
From Coq Require Import String.
From Verif.Lib Require Import Base.
From Verif.Model Require Import Midi Mapping.
Open Scope Z_scope.
Local Open Scope string_scope.

(* kemper/__init__.py:318-329 effect slot ids *)
Inductive slot := SlotA | SlotB | SlotC | SlotD | SlotX | SlotMOD | SlotDLY | SlotREV | SlotDLYns | SlotREVns.

(* kemper/__init__.py:331-344 EFFECT_SLOT_NAME *)
Definition slot_name (s : slot) : string :=
  match s with
  | SlotA => "A" | SlotB => "B" | SlotC => "C" | SlotD => "D" | SlotX => "X" | SlotMOD => "MOD" | SlotDLY => "DLY" | SlotREV => "REV"
  | SlotDLYns => "DLYns" | SlotREVns => "REVns"
  end.
(* kemper/__init__.py:347-360 CC_EFFECT_SLOT_ENABLE *)
Definition slot_cc (s : slot) : Z :=
  match s with
  | SlotA => 17 | SlotB => 18 | SlotC => 19 | SlotD => 20 | SlotX => 22 | SlotMOD => 24 | SlotDLY => 27 | SlotREV => 29
  | SlotDLYns => 26 | SlotREVns => 28
  end.
(* kemper/__init__.py:363-376 NRPN_SLOT_ADDRESS_PAGE *)
Definition slot_page (s : slot) : Z :=
  match s with
  | SlotA => 0x32 | SlotB => 0x33 | SlotC => 0x34 | SlotD => 0x35 | SlotX => 0x38 | SlotMOD => 0x3a | SlotDLY => 0x3c | SlotREV => 0x3d
  | SlotDLYns => 0x3c | SlotREVns => 0x3d
  end.
(* kemper/__init__.py:380-393 NRPN_FREEZE_SLOT_PARAMETER_ADDRESSES *)
Definition slot_freeze (s : slot) : Z :=
  match s with
  | SlotA => 0x6b | SlotB => 0x6c | SlotC => 0x6d | SlotD => 0x6e | SlotX => 0x6f | SlotMOD => 0x71 | SlotDLY => 0x72 | SlotREV => 0x73
  | SlotDLYns => 0x72 | SlotREVns => 0x73
  end.

(* select.py:12 "Rig index must be in range [0..4]"; effects.py:8 effect buttons I to IV *)
Inductive rigno := Rig1 | Rig2 | Rig3 | Rig4 | Rig5.
Inductive button := ButtonI | ButtonII | ButtonIII | ButtonIV.
Definition rig_index (r : rigno) : Z := match r with Rig1 => 0 | Rig2 => 1 | Rig3 => 2 | Rig4 => 3 | Rig5 => 4 end.
Definition rig_text (r : rigno) : string := match r with Rig1 => "1" | Rig2 => "2" | Rig3 => "3" | Rig4 => "4" | Rig5 => "5" end.
Definition button_num (b : button) : Z := match b with ButtonI => 1 | ButtonII => 2 | ButtonIII => 3 | ButtonIV => 4 end.
Definition button_text (b : button) : string := match b with ButtonI => "1" | ButtonII => "2" | ButtonIII => "3" | ButtonIV => "4" end.

(* kemper/__init__.py:264-289 KemperNRPNMessage and 292-310 KemperNRPNExtendedMessage, with the default manufacturer,
   product and device. *)
Definition nrpn (function page number : Z) : msg := SysEx [0x00; 0x20; 0x33] [0x02; 0x7f; function; 0x00; page; number].
Definition nrpn_ext (function : Z) (controller : list Z) : msg := SysEx [0x00; 0x20; 0x33] ([0x02; 0x7f; function; 0x00] ++ controller)%list.

(* kemper/__init__.py:50-55 function codes *)
Definition f_request_single : Z := 0x41.
Definition f_request_string : Z := 0x43.
Definition f_response_single : Z := 0x01.
Definition f_response_string : Z := 0x03.
Definition f_set_single : Z := 0x01.

(* One constructor per mapping function. *)
Inductive kparam :=
(* kemper/__init__.py:416-547 *)
| EffectState (s : slot) | EffectType (s : slot) | RigDate | RigName | TunerMode | TunerNote | TunerDeviance | Sense | RigId
(* amp.py, cabinet.py, rig.py *)
| AmpName | AmpState | AmpGain | CabName | CabState | RigComment | RigVolume | RigTranspose
(* bank.py, select.py *)
| NextBank | PrevBank | SelectRig (r : rigno) | SelectBank
(* effects.py, rotary.py, freeze.py *)
| EffectButton (b : button) | DlyRevMix (s : slot) | RotarySpeed (s : slot) | Freeze (s : slot) | FreezeAll
(* fixed_fx.py *)
| FixTranspose | FixGate | FixComp | FixBoost | FixWah | FixChorus | FixAir | FixTracker
(* looper.py *)
| LoopRec | LoopStop | LoopTrigger | LoopReverse | LoopHalf | LoopCancel | LoopErase
(* morph.py *)
| MorphButton | MorphPedal
(* pedals.py *)
| Wah | Volume | Pitch | DelayMix | DelayFeedback | ReverbMix | ReverbTime | OutputVolume
(* system.py *)
| MainVolume | MonitorVolume | LooperVolume | SpaceIntensity
(* tempo.py, tempo_bpm.py *)
| TapTempo | TempoPulse | TempoBpm.

(* What a mapping function passes to get: name, set, request, response, type, whether it depends on Rig Date, and whether
   it is a two-part mapping. *)
Record kdef := mkK { k_name : string; k_set : tmpl; k_request : tmpl; k_response : tmpl; k_type : ptype; k_dep : bool; k_two : bool }.

(* the common shapes *)
Definition numeric (n : string) (page number : Z) : kdef :=            (* settable, requestable numbers, e.g. amp.py:32-50 *)
  mkK n (TOne (nrpn f_set_single page number)) (TOne (nrpn f_request_single page number)) (TOne (nrpn f_response_single page number))
      Numeric false false.
Definition text (n : string) (number : Z) (dep : bool) : kdef :=       (* strings, e.g. __init__.py:451-484 *)
  mkK n TNone (TOne (nrpn f_request_string 0x00 number)) (TOne (nrpn f_response_string 0x00 number)) Str dep false.
Definition only_cc (n : string) (cc : Z) : kdef :=                      (* set by CC only, e.g. pedals.py:18-24 *)
  mkK n (TOne (CC cc 0)) TNone TNone Numeric false false.
Definition only_set (n : string) (page number : Z) : kdef :=            (* set by SysEx only, e.g. looper.py:17-25 *)
  mkK n (TOne (nrpn f_set_single page number)) TNone TNone Numeric false false.
Definition rig_pair (n : string) (set : tmpl) : kdef :=                 (* answered by CC 32 and PC, e.g. bank.py:12-27 *)
  mkK n set TNone (TMany [Some (CC 32 0); Some (PC 0)]) Numeric false true.

Definition kemper (p : kparam) : kdef :=
  match p with
  | EffectState s =>                                                    (* __init__.py:417-434 *)
      mkK ("Slot State " ++ slot_name s) (TOne (CC (slot_cc s) 0)) (TOne (nrpn f_request_single (slot_page s) 0x03))
          (TOne (nrpn f_response_single (slot_page s) 0x03)) Numeric false false
  | EffectType s =>                                                     (* __init__.py:437-451 *)
      mkK ("Slot Type " ++ slot_name s) TNone (TOne (nrpn f_request_single (slot_page s) 0x00))
          (TOne (nrpn f_response_single (slot_page s) 0x00)) Numeric false false
  | RigDate => text "Rig Date" 0x03 false                               (* __init__.py:454-468 *)
  | RigName => text "Rig Name" 0x01 true                                (* __init__.py:471-486 *)
  | TunerMode => mkK "Tuner Mode" (TOne (CC 31 0)) TNone (TOne (nrpn 0x01 0x7f 0x7e)) Numeric false false   (* 489-501 *)
  | TunerNote => mkK "Tuner Note" TNone TNone (TOne (nrpn 0x01 0x7d 0x54)) Numeric false false              (* 504-512 *)
  | TunerDeviance => mkK "Tuner Deviance" TNone TNone (TOne (nrpn 0x01 0x7c 0x0f)) Numeric false false      (* 515-523 *)
  | Sense => mkK "Sense" TNone TNone (TOne (nrpn_ext 0x7e [0x7f])) Numeric false false                      (* 526-535 *)
  | RigId => rig_pair "Rig ID" TNone                                    (* __init__.py:538-550 *)
  | AmpName => text "Amp Name" 0x10 true                                (* amp.py:14-29 *)
  | AmpState => numeric "Amp State" 0x0a 0x02                           (* amp.py:32-50 *)
  | AmpGain => numeric "Gain" 0x0a 0x04                                 (* amp.py:53-71 *)
  | CabName => text "Cab Name" 0x20 true                                (* cabinet.py:11-26 *)
  | CabState => numeric "Cab State" 0x0c 0x02                           (* cabinet.py:29-46 *)
  | RigComment => text "Rig Comment" 0x04 true                          (* rig.py:14-29 *)
  | RigVolume => numeric "RigVol" 0x04 0x01                             (* rig.py:32-50 *)
  | RigTranspose => numeric "RigTrans" 0x04 0x04                        (* rig.py:53-71 *)
  | NextBank => rig_pair "Next Bank" (TOne (CC 48 0))                   (* bank.py:12-27 *)
  | PrevBank => rig_pair "Prev Bank" (TOne (CC 49 0))                   (* bank.py:30-45 *)
  | SelectRig r => rig_pair ("Select Rig " ++ rig_text r) (TOne (CC (50 + rig_index r) 1))   (* select.py:13-30 *)
  | SelectBank => rig_pair "Select Bank" (TOne (CC 47 0))               (* select.py:33-50 *)
  | EffectButton b => only_cc ("Effect Button " ++ button_text b) (75 + (button_num b - 1))  (* effects.py:15-22 *)
  | DlyRevMix s => numeric ("Mix " ++ slot_name s) (slot_page s) 0x45   (* effects.py:25-43 *)
  | RotarySpeed s => numeric ("Rot. Speed " ++ slot_name s) (slot_page s) 0x1e               (* rotary.py:12-30 *)
  | Freeze s => numeric ("Freeze " ++ slot_name s) 0x7d (slot_freeze s) (* freeze.py:14-32 *)
  | FreezeAll => mkK "Freeze" (TOne (CC 35 0)) TNone (TOne (CC 35 0)) Numeric false false    (* freeze.py:35-45 *)
  | FixTranspose => numeric "TranspSt" 5 1                              (* fixed_fx.py:8-61 *)
  | FixGate => numeric "FixGateSt" 5 6
  | FixComp => numeric "FixCompSt" 5 11
  | FixBoost => numeric "FixBoost" 5 16
  | FixWah => numeric "FixWah" 5 21
  | FixChorus => numeric "FixChor" 5 26
  | FixAir => numeric "FixAir" 5 36
  | FixTracker => numeric "FixTracker" 5 41
  | LoopRec => only_set "LoopRec" 0x7d 88                               (* looper.py:17-84 *)
  | LoopStop => only_set "LoopStop" 0x7d 89
  | LoopTrigger => only_set "LoopTrig" 0x7d 90
  | LoopReverse => only_set "LoopRev" 0x7d 91
  | LoopHalf => only_set "Loop1/2" 0x7d 92
  | LoopCancel => only_set "LoopCanc" 0x7d 93
  | LoopErase => only_set "LoopErase" 0x7d 94
  | MorphButton =>                                                      (* morph.py:13-29 *)
      mkK "Morph Button" (TOne (CC 80 0)) (TOne (nrpn f_request_single 0x00 0x0b)) (TOne (nrpn f_response_single 0x00 0x0b)) Numeric false false
  | MorphPedal =>                                                       (* morph.py:32-48 *)
      mkK "Morph" (TOne (CC 11 0)) (TOne (nrpn f_request_single 0x00 0x0b)) (TOne (nrpn f_response_single 0x00 0x0b)) Numeric false false
  | Wah => only_cc "Wah" 1                                              (* pedals.py:18-88 *)
  | Volume => only_cc "Vol" 7
  | Pitch => only_cc "Pitch" 4
  | DelayMix => only_cc "DlMix" 68
  | DelayFeedback => only_cc "Feed" 69
  | ReverbMix => only_cc "RvMix" 70
  | ReverbTime => only_cc "RvTime" 71
  | OutputVolume => only_cc "OutVol" 73
  | MainVolume => numeric "MainVol" 0x7f 0                              (* system.py:14-94 *)
  | MonitorVolume => numeric "MonVol" 0x7f 2
  | LooperVolume => numeric "LoopVol" 0x7f 52
  | SpaceIntensity => numeric "SpaceInt" 0x7f 36
  | TapTempo => only_cc "Tap Tempo" 30                                  (* tempo.py:10-16 *)
  | TempoPulse => mkK "Tempo Pulse" TNone TNone (TOne (nrpn_ext 0x01 [0x7c; 0x00; 0x00])) Numeric false false   (* tempo.py:19-30 *)
  | TempoBpm => numeric "BPM" 0x04 0x00                                 (* tempo_bpm.py:11-29 *)
  end.

(* The call of get. [date] is the object of Rig Date, used by the mappings that depend on it. *)
Definition kargs (p : kparam) (date : nat) : get_args :=
  let k := kemper p in
  mkArgs (k_two k) (k_name k) (k_set k) (k_request k) (k_response k) None (k_type k) (if k_dep k then Some date else None).

(* Calling a mapping function. The argument depends = KemperMappings.RIG_DATE() is evaluated first (__init__.py:473). *)
Definition kget (r : registry) (p : kparam) : res (registry * nat) :=
  if k_dep (kemper p) then
    match get r (kargs RigDate 0) with
    | Raise => Raise
    | Ok (r', d) => get r' (kargs p d)
    end
  else get r (kargs p 0).
Fixpoint kgets (r : registry) (ps : list kparam) : res (registry * list (kparam * nat)) :=
  match ps with
  | [] => Ok (r, [])
  | p :: ps' =>
      match kget r p with
      | Raise => Raise
      | Ok (r', i) => match kgets r' ps' with
                      | Raise => Raise
                      | Ok (r'', is) => Ok (r'', (p, i) :: is)
                      end
      end
  end.
