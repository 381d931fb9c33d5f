(* clients/kemper/actions/tempo.py SHOW_TEMPO, mappings/tempo_bpm.py convert_bpm *)
From Verif.Lib Require Import Base.
From Verif.Model Require Import Analog.

(* mappings/tempo_bpm.py:32-33 convert_bpm, as a number: str is left out. The division is exact for the 14 bit values. *)
Definition convert_bpm (v : Z) : Z := round_half_even v 64.

(* The mappings of the callback (tempo.py:72-93) and their values *)
Inductive tparam := PPulse | PTuner | PBpm | PRig.
Record tvals := mkTv { tv_pulse : option Z; tv_tuner : option Z; tv_bpm : option Z; tv_rig : option Z }.
Definition tv_set (s : tvals) (p : tparam) (v : option Z) : tvals :=
  match p with
  | PPulse => mkTv v (tv_tuner s) (tv_bpm s) (tv_rig s)
  | PTuner => mkTv (tv_pulse s) v (tv_bpm s) (tv_rig s)
  | PBpm => mkTv (tv_pulse s) (tv_tuner s) v (tv_rig s)
  | PRig => mkTv (tv_pulse s) (tv_tuner s) (tv_bpm s) v
  end.

(* tempo.py:57-104. t_text: the text for a BPM value is not empty (an empty one is not shown, 147). The label's text and the preview's are
   represented by the BPM value in them. *)
Record tcfg := mkTc { tc_display : bool; tc_change : bool; tc_text : Z -> bool }.
Record tstate := mkTs { t_vals : tvals; t_cur : option Z; t_bpm : option Z; t_rig : option Z }.
Definition t_init : tstate := mkTs (mkTv None None None None) None None None.

Inductive tev :=
| TLed (on : bool)        (* switch colour and brightness *)
| TPreview (bpm : Z)      (* preview.preview *)
| TBack                   (* label.back_color *)
| TText (bpm : Z).        (* label.text *)

Definition oeqb (a b : option Z) : bool :=
  match a, b with Some x, Some y => x =? y | None, None => true | _, _ => false end.

(* tempo.py:118-149 update_displays. The BPM is only resolved if there is a label to show it (51, 78-82). *)
Definition t_draw (c : tcfg) (s : tstate) : tstate * list tev :=
  let v := t_vals s in
  if oeqb (tv_tuner v) (Some 1) then (s, [])
  else
    let led := match tv_pulse v with Some x => negb (oeqb (Some x) (t_cur s)) | None => false end in
    let cur := if led then tv_pulse v else t_cur s in
    let e1 := if led then [TLed (match tv_pulse v with Some x => 0 <? x | None => false end)] else [] in
    let new := if tc_display c || tc_change c then match tv_bpm v with Some b => negb (oeqb (Some b) (t_bpm s)) | None => false end else false in
    let bpm := match tv_bpm v with Some b => convert_bpm b | None => 0 end in
    let e2 := if new && tc_change c && negb (oeqb (t_bpm s) None) && oeqb (tv_rig v) (t_rig s) then [TPreview bpm] else [] in
    let e3 := if tc_display c then TBack :: (if new && tc_text c bpm then [TText bpm] else []) else [] in
    (mkTs v cur (if new then tv_bpm v else t_bpm s) (if new && tc_change c then tv_rig v else t_rig s), e1 ++ e2 ++ e3).

(* A parameter gets a value (None: its request was given up, callbacks/__init__.py:51-60), or update_displays: after each of these, and
   whenever the action gets enabled. The action is drawn only while it is enabled. *)
Inductive top := TVal (p : tparam) (v : option Z) | TDraw.
Definition tstep (c : tcfg) (s : tstate) (o : top) : tstate * list tev :=
  match o with
  | TVal p v => (mkTs (tv_set (t_vals s) p v) (t_cur s) (t_bpm s) (t_rig s), [])
  | TDraw => t_draw c s
  end.
