(* C48: a light spot running around the circle of switches. *)
From Coq Require Import QArith Qround Qminmax.
From Verif.Lib Require Import Base.
From Verif.Model Require Import Strobe.
Open Scope Z_scope.

(* A sensible configuration *)
Definition good_conf (c : strobe_conf) : Prop :=
  0 < st_speed c /\ (0 < st_width c)%Q /\ (0 <= st_dim c)%Q /\ 0 <= st_interval c /\ (2 <= st_n c)%nat.

(* How far the spot has travelled, in units of 1/speed turns: each update (tuner on, more than the interval passed since the last one)
   moves it by deviance times time, forwards if the note is too high (backwards if reversed); the speed is limited. *)
Record travel := mkTravel { t_on : bool; t_last : Z; t_dist : Z; t_updated : bool }.
Definition limited (c : strobe_conf) (d : Z) : Z := Z.max (- (100 * st_interval c)) (Z.min (100 * st_interval c) d).
Definition too_high (c : strobe_conf) (dev : Z) : Z := if st_reverse c then - (dev - 8191) else dev - 8191.
Definition travel_step (c : strobe_conf) (t : travel) (o : strobe_op) : travel :=
  match o with
  | TunerState v now => if v =? 1 then mkTravel true now (t_dist t) false else mkTravel false (t_last t) (t_dist t) false
  | Deviance v now =>
      if t_on t && (st_interval c <? now - t_last t)
      then mkTravel true now (t_dist t + limited c (too_high c v) * (now - t_last t)) true
      else mkTravel (t_on t) (t_last t) (t_dist t) false
  end.
Definition travelled (c : strobe_conf) (ops : list strobe_op) : travel := fold_left (travel_step c) ops (mkTravel false 0 0 false).

(* The light of the spot: highest in the middle, falling to nothing at the distance width (in turns), the shorter way round the circle *)
Definition frac (x : Q) : Q := (x - inject_Z (Qfloor x))%Q.
Definition circle_distance (x : Q) : Q := Qmin (frac x) (1 - frac x).
Definition light (w : Q) (dist : Q) : Q := Qmax 0 (1 - dist / w).
(* in 16 steps, squared, dimmed *)
Definition led (c : strobe_conf) (dist : Q) : Q :=
  let l := (Qfloor (light (st_width c) dist * 16) # 16)%Q in (l * l * st_dim c)%Q.
Definition turns (c : strobe_conf) (units : Z) : Q := (units # Z.to_pos (st_speed c))%Q.
Definition place (c : strobe_conf) (i : nat) : Q := (Z.of_nat i # Pos.of_nat (st_n c))%Q.

(* The LEDs, given what has been set on them *)
Definition set_led (ev : strobe_ev) (leds : nat -> Q) : nat -> Q :=
  match ev with SetColor _ => leds | SetBrightness i q => fun k => if (k =? i)%nat then q else leds k end.
Definition leds_after (evs : list strobe_ev) (leds : nat -> Q) : nat -> Q := fold_left (fun l e => set_led e l) evs leds.
