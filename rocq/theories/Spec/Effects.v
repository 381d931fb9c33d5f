(* C46: the effect types of the device, written down as ranges of type numbers with their family and LED colour. *)
From Coq Require Import String.
From Verif.Lib Require Import Base.
From Verif.Model Require Import Effects.
Open Scope string_scope. Open Scope Z_scope.

(* (first, last, family name, colour): main manual / MIDI documentation as cited in the source comments *)
Definition families : list (Z * Z * string * rgb) :=
  [(1, 10, "Wah", ORANGE); (11, 11, "Pitch", WHITE); (12, 13, "Wah", ORANGE); (17, 42, "Dist", RED); (49, 50, "Comp", CYAN); (57, 58, "Gate", CYAN);
   (64, 64, "Space", GREEN); (65, 67, "Chorus", BLUE); (68, 68, "Vibrato", BLUE); (69, 69, "Rotary", BLUE); (70, 70, "Tremolo", BLUE); (71, 71, "Chorus", BLUE);
   (75, 76, "Tremolo", BLUE); (77, 80, "Slicer", BLUE); (81, 91, "Phaser", PURPLE); (97, 104, "EQ", YELLOW); (113, 116, "Boost", RED); (121, 123, "Looper", PINK);
   (129, 132, "Pitch", WHITE); (138, 140, "Dual", LIGHT_GREEN); (145, 166, "Delay", GREEN); (177, 193, "Reverb", GREEN)].

Definition in_family (t : Z) (name : string) (col : rgb) : Prop := exists lo hi, In (lo, hi, name, col) families /\ lo <= t <= hi.
Definition has_family (t : Z) : Prop := exists name col, in_family t name col.

(* What is shown for a type without configured text and colour *)
Definition shown_name (t : Z) : option string := index CATEGORY_NAMES (get_effect_category t).
Definition shown_color (t : Z) : option rgb := get_effect_category_color None (get_effect_category t).
Definition own_name (t : Z) (n : string) : Prop := In (t, n) EFFECT_TYPE_NAMES.
