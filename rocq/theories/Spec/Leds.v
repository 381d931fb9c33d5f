From Coq Require Import QArith.
From Verif.Lib Require Import Base.
From Verif.Model Require Import Midi Leds.
Open Scope Z_scope.

(* A switch whose stored lists fit its pixels, which are distinct. *)
Definition leds_ok (s : switch_leds) : Prop :=
  length (cols s) = length (px s) /\ length (brs s) = length (px s) /\ NoDup (px s).

Definition component_ok (c : Z) : Prop := 0 <= c <= 255.
Definition rgb_ok (c : rgb) : Prop := let '(r, g, b) := c in component_ok r /\ component_ok g /\ component_ok b.

(* The actions that take part in sharing the LEDs. *)
Definition takes_part (a : led_action) : bool := la_uses a && la_enabled a.
