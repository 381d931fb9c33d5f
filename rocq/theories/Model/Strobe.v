(* controller/strobe.py: StrobeController *)
From Coq Require Import QArith Qround.
From Verif.Lib Require Import Base.
From Verif.Model Require Import Period.
Open Scope Z_scope.

(* strobe.py:6-34. [st_speed] is the argument speed * 2000 (22). Simplification: speed is an integer, and width, dim factor and the
   brightness values are exact rationals instead of floats. [st_interval] is int(1000 / max_fps * n) (46), [st_n] the number of switches
   with pixels (57), sorted by strobe_order (52): switch k below is the k-th in that order. *)
Record strobe_conf := mkStrobe { st_speed : Z; st_width : Q; st_dim : Q; st_reverse : bool; st_interval : Z; st_n : nat }.
Definition interval_of (max_fps n : Z) : Z := (1000 * n) / max_fps.

(* 28-34, 43, 47 *)
Record strobe := mkStrobeState { s_pos : Z; s_dev : Z; s_enabled : bool; s_period : period; s_cur : list Q }.
Definition strobe_init (c : strobe_conf) : strobe := mkStrobeState 0 8192 false (new_period (st_interval c)) (repeat 0%Q (st_n c)).

(* 111-114; [None]: the loop does not end. The first bound is enough if speed > 0 (Proofs/Strobe.v: wrap_ok) *)
Fixpoint wrap_down (fuel : nat) (speed pos : Z) : option Z :=
  match fuel with
  | O => None
  | S f => if speed <? pos then wrap_down f speed (pos - speed) else Some pos
  end.
Fixpoint wrap_up (fuel : nat) (speed pos : Z) : option Z :=
  match fuel with
  | O => None
  | S f => if pos <? - speed then wrap_up f speed (pos + speed) else Some pos
  end.
Definition wrap (speed pos : Z) : option Z :=
  match wrap_down (S (Z.to_nat (Z.abs pos))) speed pos with
  | None => None
  | Some p => wrap_up (S (Z.to_nat (Z.abs p))) speed p
  end.

(* 121-127. width <> 0 (a width of 0 divides by zero) *)
Definition b_fn (p width : Q) : Q :=
  (if Qle_bool p width then 1 - p * (1 / width)
   else if Qle_bool (1 - width) p then (p - 1 + width) * (1 / width)
   else 0)%Q.

Definition Qgt_bool (a b : Q) : bool := negb (Qle_bool a b).
(* 136-139: p is below 2, so the first loop runs at most once; it is at least 0, so the second one never runs (Proofs/Strobe.v: unit_ok) *)
Definition unit_range (p : Q) : Q := (if Qgt_bool p 1 then p - 1 else p)%Q.

(* int() of a non-negative rational *)
Definition brightness16 (b : Q) : Q := ((Qfloor (b * 16)) # 16)%Q.

(* 117, 134-147 *)
Definition out_brightness (c : strobe_conf) (pos : Z) (i : nat) : Q :=
  let p := unit_range (((pos mod st_speed c) # Z.to_pos (st_speed c)) + (Z.of_nat i # Pos.of_nat (st_n c)))%Q in
  let b := brightness16 (b_fn p (st_width c)) in
  ((b * b) * st_dim c)%Q.

(* What is done to the switches: the colour is set for each switch at each update, the brightness only if it differs (146-152) *)
Inductive strobe_ev := SetColor (i : nat) | SetBrightness (i : nat) (q : Q).

Fixpoint color_switches (c : strobe_conf) (pos : Z) (i : nat) (cur : list Q) : list Q * list strobe_ev :=
  match cur with
  | [] => ([], [])
  | q :: cur' =>
      let out := out_brightness c pos i in
      let '(r, ev) := color_switches c pos (S i) cur' in
      if Qeq_bool q out then (q :: r, SetColor i :: ev) else (out :: r, SetColor i :: SetBrightness i out :: ev)
  end.

(* 89-152; one clock reading for passed and exceeded. [None]: hangs *)
Definition update_strobe (c : strobe_conf) (s : strobe) (now : Z) : option (strobe * list strobe_ev) :=
  if negb (s_enabled s) then Some (s, [])
  else
    let passed := p_passed (s_period s) now in
    let '(ex, per) := p_exceeded (s_period s) now in
    if negb ex then Some (mkStrobeState (s_pos s) (s_dev s) (s_enabled s) per (s_cur s), [])
    else
      let delta := if st_reverse c then 8191 - s_dev s else s_dev s - 8191 in
      let threshold := 100 * interval per in
      let delta := if threshold <? delta then threshold else delta in
      let delta := if delta <? - threshold then - threshold else delta in
      match wrap (st_speed c) (s_pos s - delta * passed) with
      | None => None
      | Some pos =>
          let '(cur, ev) := color_switches c pos 0 (s_cur s) in
          Some (mkStrobeState pos (s_dev s) (s_enabled s) per cur, ev)
      end.

(* 62-82 parameter_changed, for the state mapping and for the deviance mapping (two different mappings) *)
Inductive strobe_op := TunerState (v : Z) (now : Z) | Deviance (v : Z) (now : Z).
Definition strobe_step (c : strobe_conf) (s : strobe) (o : strobe_op) : option (strobe * list strobe_ev) :=
  if (st_n c <=? 1)%nat then Some (mkStrobeState (s_pos s) (s_dev s) false (s_period s) (s_cur s), [])
  else
    match o with
    | TunerState v now =>
        if v =? 1 then Some (mkStrobeState (s_pos s) (s_dev s) true (p_reset (s_period s) now) (s_cur s), [])
        else Some (mkStrobeState (s_pos s) (s_dev s) false (s_period s) (s_cur s), [])
    | Deviance v now => update_strobe c (mkStrobeState (s_pos s) v (s_enabled s) (s_period s) (s_cur s)) now
    end.

Fixpoint strobe_run (c : strobe_conf) (s : strobe) (ops : list strobe_op) : option (strobe * list strobe_ev) :=
  match ops with
  | [] => Some (s, [])
  | o :: ops' =>
      match strobe_step c s o with
      | None => None
      | Some (s1, e1) => match strobe_run c s1 ops' with None => None | Some (s2, e2) => Some (s2, e1 ++ e2) end
      end
  end.
