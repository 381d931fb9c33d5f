(* C125: texts, and the inputs of a module. *)
From Coq Require Import String.
From Verif.Lib Require Import Base.
From Verif.Model Require Import Hardware.
Local Open Scope list_scope.
Local Open Scope string_scope.

(* The text t is in s *)
Definition within (t s : string) : Prop := exists a b, s = a ++ t ++ b.
(* The inputs of a module, in its order *)
Fixpoint inputs_of (l : module) : list (string * model * option string) :=
  match l with [] => [] | (n, Input m k) :: l => (n, m, k) :: inputs_of l | (_, Other) :: l => inputs_of l end.
(* The port which tells an input of its kind: the only one, or the first of the two of a wheel *)
Definition has_port (m : model) (p : Z) : Prop := m = Switch p \/ m = Pedal p \/ (exists q, m = Wheel p q) \/ exists c, m = OtherModel c (Some p).
(* How an input with a name is called *)
Definition called (m : model) (n : string) : string := match m with Switch _ => "Switch " ++ n | Pedal _ => n ++ " (Pedal)" | Wheel _ _ => n ++ " (Encoder)" | OtherModel _ _ => n end.
(* All names are given, and different *)
Definition named (l : module) : Prop := NoDup (map snd (inputs_of l)) /\ ~ In None (map snd (inputs_of l)).
(* The Python modules of the devices (the files in content/lib/pyswitch/hardware/devices) *)
Definition python_module (d : device) : string := "pyswitch.hardware.devices.pa_midicaptain_" ++ match d with Nano4 => "nano_4" | Mini6 => "mini_6" | Captain10 => "10" end.
