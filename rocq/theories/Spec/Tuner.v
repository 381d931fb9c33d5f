(* C53: the tuner display. *)
From Verif.Lib Require Import Base.
From Verif.Model Require Import Layout Tuner.

(* The marker (of its width) lies within the bar *)
Definition marker_inside (c : tuner_conf) (x : Z) : Prop := bx (t_bounds c) <= x /\ x + t_marker c <= bx (t_bounds c) + bw (t_bounds c).
Definition good_tuner (c : tuner_conf) : Prop := 0 <= bx (t_bounds c) /\ 0 <= t_marker c <= bw (t_bounds c) /\ 0 < zoom_num c /\ 0 < zoom_den c.
Definition reported (v : Z) : Prop := 0 <= v <= 16383.

(* The last deviance and the last note of a history *)
Definition last_dev (ops : list tuner_op) : option Z := fold_left (fun l o => match o with Dev v => Some v | Note _ => l end) ops None.
Definition last_note (ops : list tuner_op) : option Z := fold_left (fun l o => match o with Note v => Some v | Dev _ => l end) ops None.
(* A deviance other than exactly 8192 has been reported *)
Definition moved (ops : list tuner_op) : Prop := exists v, In (Dev v) ops /\ v <> 8192.
