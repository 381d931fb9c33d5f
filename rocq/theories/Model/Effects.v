(* clients/kemper/actions/effect_state.py, effect_state_extended_names.py; colors.py *)
From Coq Require Import String.
From Verif.Lib Require Import Base.
From Verif.Model Require Import BinaryCb.
Open Scope string_scope. Open Scope Z_scope.

(* colors.py:2-30, as (r, g, b) *)
Definition rgb := (Z * Z * Z)%type.
Definition WHITE : rgb := (255, 255, 255).
Definition YELLOW : rgb := (255, 255, 0).
Definition ORANGE : rgb := (255, 125, 0).
Definition RED : rgb := (255, 0, 0).
Definition PINK : rgb := (255, 125, 70).
Definition PURPLE : rgb := (180, 0, 120).
Definition LIGHT_GREEN : rgb := (100, 255, 100).
Definition GREEN : rgb := (0, 255, 0).
Definition CYAN : rgb := (0, 255, 255).
Definition BLUE : rgb := (0, 0, 255).
Definition DEFAULT_LABEL_COLOR : rgb := (50, 50, 50).

(* effect_state.py:44-61 *)
Definition CATEGORY_WAH := 1.         Definition CATEGORY_DISTORTION := 2.  Definition CATEGORY_COMPRESSOR := 3.
Definition CATEGORY_NOISE_GATE := 4.  Definition CATEGORY_SPACE := 5.       Definition CATEGORY_CHORUS := 6.
Definition CATEGORY_PHASER_FLANGER := 7. Definition CATEGORY_EQUALIZER := 8. Definition CATEGORY_BOOSTER := 9.
Definition CATEGORY_LOOPER := 10.     Definition CATEGORY_PITCH := 11.      Definition CATEGORY_DUAL := 12.
Definition CATEGORY_DELAY := 13.      Definition CATEGORY_REVERB := 14.     Definition CATEGORY_TREMOLO := 15.
Definition CATEGORY_ROTARY := 16.     Definition CATEGORY_VIBRATO := 17.    Definition CATEGORY_SLICER := 18.

(* effect_state.py:65-85 *)
Definition CATEGORY_COLORS : list rgb :=
  [DEFAULT_LABEL_COLOR; ORANGE; RED; CYAN; CYAN; GREEN; BLUE; PURPLE; YELLOW; RED; PINK; WHITE; LIGHT_GREEN; GREEN; GREEN; BLUE; BLUE; BLUE; BLUE].
(* effect_state.py:88-108 *)
Definition CATEGORY_NAMES : list string :=
  ["-"; "Wah"; "Dist"; "Comp"; "Gate"; "Space"; "Chorus"; "Phaser"; "EQ"; "Boost"; "Looper"; "Pitch"; "Dual"; "Delay"; "Reverb"; "Tremolo"; "Rotary"; "Vibrato"; "Slicer"].

Definition between (lo t hi : Z) : bool := (lo <=? t) && (t <=? hi).

(* effect_state.py:137-248 get_effect_category *)
Definition get_effect_category (t : Z) : Z :=
  if t =? 0 then CATEGORY_NONE
  else if between 1 t 10 || ((t =? 12) || (t =? 13)) then CATEGORY_WAH
  else if t =? 11 then CATEGORY_PITCH
  else if between 17 t 42 then CATEGORY_DISTORTION
  else if between 49 t 50 then CATEGORY_COMPRESSOR
  else if between 57 t 58 then CATEGORY_NOISE_GATE
  else if t =? 64 then CATEGORY_SPACE
  else if (t =? 65) || (t =? 66) || (t =? 67) || (t =? 71) then CATEGORY_CHORUS
  else if t =? 68 then CATEGORY_VIBRATO
  else if t =? 69 then CATEGORY_ROTARY
  else if (t =? 70) || (t =? 75) || (t =? 76) then CATEGORY_TREMOLO
  else if between 77 t 80 then CATEGORY_SLICER
  else if between 81 t 91 then CATEGORY_PHASER_FLANGER
  else if between 97 t 104 then CATEGORY_EQUALIZER
  else if between 113 t 116 then CATEGORY_BOOSTER
  else if between 121 t 123 then CATEGORY_LOOPER
  else if between 129 t 132 then CATEGORY_PITCH
  else if between 138 t 140 then CATEGORY_DUAL
  else if between 145 t 166 then CATEGORY_DELAY
  else if between 177 t 193 then CATEGORY_REVERB
  else CATEGORY_NONE.

(* Tuple indexing (a negative index counts from the end in Python; categories are not negative) *)
Definition index {A} (l : list A) (i : Z) : option A := if i <? 0 then None else nth_error l (Z.to_nat i).

(* effect_state.py:252-256; [color]: None if none or an empty value was configured. Result None: exception *)
Definition get_effect_category_color (color : option rgb) (category : Z) : option rgb :=
  match color with Some c => Some c | None => index CATEGORY_COLORS category end.

(* dict lookup; a literal with a repeated key would keep the last entry, the list has none (proved) *)
Fixpoint lookup (l : list (Z * string)) (t : Z) : option string :=
  match l with [] => None | (k, n) :: r => if k =? t then Some n else lookup r t end.

(* effect_state.py:259-276. text, slot: None if not configured; ext: the extended list if used *)
Definition get_effect_category_text (text slot : option string) (ext : option (list (Z * string))) (category : Z) (t : option Z) : option string :=
  match text with
  | Some x => Some x
  | None =>
      let name := match ext, t with
                  | Some l, Some ty => match lookup l ty with Some n => Some n | None => index CATEGORY_NAMES category end
                  | _, _ => index CATEGORY_NAMES category
                  end in
      match name, slot with
      | Some n, Some s => Some (String.append s (String.append " " n))
      | _, _ => name
      end
  end.

(* effect_state_extended_names.py:33-142 *)
Definition EFFECT_TYPE_NAMES : list (Z * string) := [
   (0, "Empty"); (1, "Wah"); (2, "LP"); (3, "HP"); (4, "Vowel"); (6, "Wah Ph");
   (7, "Wah Fl"); (8, "Wah RR"); (9, "Ring"); (10, "FShift"); (11, "Pitch"); (12, "Wah Form");
   (13, "VinylStp"); (17, "Bit Shp"); (18, "Octa Shp"); (19, "Soft Shp"); (20, "Hard Shp"); (21, "Wave Shp");
   (32, "KDrive"); (33, "Green"); (34, "Plus DS"); (35, "One DS"); (36, "Muff"); (37, "Mouse");
   (38, "KFuzz"); (39, "Metal DS"); (42, "Full OC"); (49, "Comp"); (50, "Swell"); (57, "Gate 2:1");
   (58, "Gate 4:1"); (64, "Space"); (65, "VChorus"); (66, "HChorus"); (67, "Air Ch."); (68, "Vibrato");
   (69, "Rotary"); (70, "Tremolo"); (71, "MPitch"); (81, "Phaser"); (82, "Vibe"); (83, "Ph 1way");
   (89, "Flanger"); (90, "Fl 1way"); (97, "Graphic"); (98, "StudioEQ"); (99, "MetalEQ"); (100, "Acoustic");
   (101, "Wide"); (102, "WidePh"); (103, "WideDLY"); (104, "Double"); (113, "Treble"); (114, "Lead");
   (115, "Boost"); (116, "WahBoost"); (121, "Loop"); (122, "Loop"); (123, "LoopDist"); (129, "Transp");
   (130, "ChromPtch"); (131, "HarmPtch"); (132, "Octave"); (137, "DualChrom"); (138, "DualHarm"); (139, "DualCryst");
   (140, "DualLoop"); (145, "LDelay"); (146, "SDelay"); (147, "DualDly"); (148, "2TpDelay"); (149, "S2TDelay");
   (150, "Crystal"); (151, "LoopPitch"); (152, "FShiftDly"); (161, "RhDelay"); (162, "MeloChr"); (163, "MeloHarm");
   (164, "QuadDly"); (165, "QuadChrm"); (166, "QuadHarm"); (177, "LReverb"); (178, "NatRev"); (179, "EasyRev");
   (180, "Echo"); (181, "Cirrus"); (182, "FormRev"); (183, "Sphere"); (193, "Spring"); (75, "Tremolo");
   (76, "HarmTrem"); (77, "Pulse"); (78, "Saw"); (79, "PulsePan"); (80, "SawPan")].

(* kemper/__init__.py:333-346 *)
Definition EFFECT_SLOT_NAME : list string := ["A"; "B"; "C"; "D"; "X"; "MOD"; "DLY"; "REV"; "DLYns"; "REVns"].
