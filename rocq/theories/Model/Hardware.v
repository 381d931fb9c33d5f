(* Devices and their inputs in the web application: /repo/web/htdocs/js/model/Device.js 9-24, python/parser/PySwitchHardware.py 15-72, js/model/parser/Parser.js 145-179, 291-305,
   and the definitions of content/lib/pyswitch/hardware/devices/*.py. Left out: importing the module (each parser does it at most once, Parser.js 294), pixels and the order for the strobe. *)
From Coq Require Import String.
From Verif.Lib Require Import Base.
From Verif.Model Require Import Label.
Local Open Scope list_scope.
Local Open Scope string_scope.

(* JavaScript: s.includes(p) *)
Fixpoint includes (p s : string) : bool := (String.prefix p s || match s with EmptyString => false | String _ r => includes p r end)%bool.

Inductive device := Nano4 | Mini6 | Captain10.
Definition import_path (d : device) : string :=
  match d with Nano4 => "pyswitch.hardware.devices.pa_midicaptain_nano_4" | Mini6 => "pyswitch.hardware.devices.pa_midicaptain_mini_6" | Captain10 => "pyswitch.hardware.devices.pa_midicaptain_10" end.
(* Device.js 9-24: getInstance *)
Definition device_of (inputs_py : string) : device :=
  if includes (import_path Nano4) inputs_py then Nano4
  else if includes (import_path Mini6) inputs_py then Mini6
  else if includes (import_path Captain10) inputs_py then Captain10 else Captain10.

(* The model of an input: its class and its ports. An encoder has two *)
Inductive model := Switch (port : Z) | Pedal (port : Z) | Wheel (port_1 port_2 : Z) | OtherModel (class : string) (port : option Z).
(* A definition in the module of the device: an input with its model and name, or anything else *)
Inductive item := Input (m : model) (name : option string) | Other.
Definition module := list (string * item).

(* PySwitchHardware.py 42-53 *)
Definition class (m : model) : string := match m with Switch _ => "AdafruitSwitch" | Pedal _ => "AdafruitPotentiometer" | Wheel _ _ => "AdafruitEncoder" | OtherModel c _ => c end.
Definition first_port (m : model) : option Z := match m with Switch p | Pedal p | Wheel p _ => Some p | OtherModel _ p => p end.
(* PySwitchHardware.py 62-72: _display_name. None: neither name nor port, which raises a KeyError *)
Definition display_name (m : model) (name : option string) : option string :=
  match (match name with Some n => Some n | None => option_map (fun p => "GP" ++ dec p) (first_port m) end) with
  | None => None
  | Some n =>
    Some (if String.eqb (class m) "AdafruitSwitch" then "Switch " ++ n
          else if String.eqb (class m) "AdafruitPotentiometer" then n ++ " (Pedal)"
          else if String.eqb (class m) "AdafruitEncoder" then n ++ " (Encoder)" else n)
  end.
(* An input as it is told to JavaScript *)
Record info := mkInfo { i_assign : string; i_class : string; i_port : option Z; i_name : option string; i_display : option string }.
(* PySwitchHardware.py 29-58: get, for the module as sorted by dir *)
Definition hardware (l : module) : list info :=
  flat_map (fun e => match snd e with Input m n => [mkInfo (fst e) (class m) (first_port m) n (display_name m n)] | Other => [] end) l.
(* Parser.js 152-160: the definition of the input with a name *)
Definition find_input (n : string) (l : list info) : option info := find (fun i => match i_name i with Some m => String.eqb m n | None => false end) l.

(* content/lib/pyswitch/hardware/devices/pa_midicaptain_10.py 50-70, pa_midicaptain_mini_6.py, pa_midicaptain_nano_4.py: the inputs, sorted by name as dir does, without the imports *)
Definition captain10 : module :=
  [("PA_MIDICAPTAIN_10_EXP_PEDAL_1", Input (Pedal 27) (Some "Exp1")); ("PA_MIDICAPTAIN_10_EXP_PEDAL_2", Input (Pedal 28) (Some "Exp2"));
   ("PA_MIDICAPTAIN_10_EXP_SWITCH_1", Input (Switch 27) (Some "ExpSw1")); ("PA_MIDICAPTAIN_10_EXP_SWITCH_2", Input (Switch 28) (Some "ExpSw2"));
   ("PA_MIDICAPTAIN_10_SWITCH_1", Input (Switch 1) (Some "1")); ("PA_MIDICAPTAIN_10_SWITCH_2", Input (Switch 25) (Some "2"));
   ("PA_MIDICAPTAIN_10_SWITCH_3", Input (Switch 24) (Some "3")); ("PA_MIDICAPTAIN_10_SWITCH_4", Input (Switch 23) (Some "4"));
   ("PA_MIDICAPTAIN_10_SWITCH_A", Input (Switch 9) (Some "A")); ("PA_MIDICAPTAIN_10_SWITCH_B", Input (Switch 10) (Some "B"));
   ("PA_MIDICAPTAIN_10_SWITCH_C", Input (Switch 11) (Some "C")); ("PA_MIDICAPTAIN_10_SWITCH_D", Input (Switch 18) (Some "D"));
   ("PA_MIDICAPTAIN_10_SWITCH_DOWN", Input (Switch 19) (Some "Down")); ("PA_MIDICAPTAIN_10_SWITCH_UP", Input (Switch 20) (Some "Up"));
   ("PA_MIDICAPTAIN_10_WHEEL_BUTTON", Input (Switch 0) (Some "WhlButton")); ("PA_MIDICAPTAIN_10_WHEEL_ENCODER", Input (Wheel 2 3) (Some "Wheel"))].
Definition mini6 : module :=
  [("PA_MIDICAPTAIN_MINI_SWITCH_1", Input (Switch 1) (Some "1")); ("PA_MIDICAPTAIN_MINI_SWITCH_2", Input (Switch 25) (Some "2")); ("PA_MIDICAPTAIN_MINI_SWITCH_3", Input (Switch 24) (Some "3"));
   ("PA_MIDICAPTAIN_MINI_SWITCH_A", Input (Switch 9) (Some "A")); ("PA_MIDICAPTAIN_MINI_SWITCH_B", Input (Switch 10) (Some "B")); ("PA_MIDICAPTAIN_MINI_SWITCH_C", Input (Switch 11) (Some "C"))].
Definition nano4 : module :=
  [("PA_MIDICAPTAIN_NANO_SWITCH_1", Input (Switch 1) (Some "1")); ("PA_MIDICAPTAIN_NANO_SWITCH_2", Input (Switch 25) (Some "2"));
   ("PA_MIDICAPTAIN_NANO_SWITCH_A", Input (Switch 9) (Some "A")); ("PA_MIDICAPTAIN_NANO_SWITCH_B", Input (Switch 10) (Some "B"))].
Definition module_of (d : device) : module := match d with Nano4 => nano4 | Mini6 => mini6 | Captain10 => captain10 end.
