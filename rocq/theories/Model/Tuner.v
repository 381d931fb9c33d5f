(* ui/elements.py:233-420 TunerDisplay *)
From Verif.Lib Require Import Base.
From Verif.Model Require Import Layout.

(* elements.py:238-261, 316-371. Zoom is the rational zoom_num / zoom_den (> 0). Colours are only compared, so they are the three roles. *)
Inductive tcolor := InTune | OutOfTune | Neutral.
Record tuner_conf := mkTuner { t_bounds : bounds; t_marker : Z; zoom_num : Z; zoom_den : Z; cal_low : Z; cal_high : Z }.

(* elements.py:291-295. Floats are exact here; int() truncates *)
Definition value_scaled (c : tuner_conf) (v : Z) : Z :=
  if negb (zoom_num c =? zoom_den c)
  then Z.max (-8192) (Z.min (Z.quot ((v - 8192) * zoom_num c) (zoom_den c)) 8192) + 8191
  else v.
Definition marker_x (c : tuner_conf) (v : Z) : Z :=
  Z.quot (bx (t_bounds c) * 16384 + (bw (t_bounds c) - t_marker c) * value_scaled c v) 16384.
(* elements.py:268-284 *)
Definition marker_start (c : tuner_conf) : Z := Z.quot (bx (t_bounds c) * 2 + (bw (t_bounds c) - t_marker c)) 2.
(* elements.py:297 *)
Definition in_tune (c : tuner_conf) (v : Z) : bool := (cal_low c <=? v) && (v <=? cal_high c).

(* What is shown: marker position and colour, note label (index of the note name; None: the initial text) and its colour (None: the
   initial colour). Setters that skip an unchanged value (305-310, label setters) are modelled as assignments. *)
Record tuner := mkTunerState { u_x : Z; u_color : tcolor; u_note : option Z; u_text_color : option tcolor; u_last_note : option Z; u_last_dev : Z }.
Definition tuner_init (c : tuner_conf) : tuner := mkTunerState (marker_start c) InTune None None None 8192.

(* elements.py:396-416 parameter_changed for the note and the deviance mapping *)
Inductive tuner_op := Note (v : Z) | Dev (v : Z).
Definition tuner_step (c : tuner_conf) (s : tuner) (o : tuner_op) : tuner :=
  match o with
  | Note v =>
      if match u_last_note s with Some n => v =? n | None => false end then s
      else mkTunerState (u_x s) (u_color s) (Some (v mod 12)) (u_text_color s) (Some v) (u_last_dev s)
  | Dev v =>
      if v =? u_last_dev s then s
      else
        let col := if in_tune c v then InTune else OutOfTune in
        mkTunerState (marker_x c v) col (u_note s) (Some col) (u_last_note s) v
  end.
Definition tuner_run (c : tuner_conf) (ops : list tuner_op) : tuner := fold_left (tuner_step c) ops (tuner_init c).
