(* controller/actions/AnalogAction.py *)
From Verif.Lib Require Import Base.
From Verif.Model Require Import Midi Period.

(* AnalogAction.py:8-61. [a_maxv]: max_value; [a_steps]: num_steps; [a_cal]: auto_calibrate; [a_win]: int(65536 * cal_min_window);
   [a_tf]: transfer_function; [a_raw]: min_raw_value. Preview display left out. *)
Record aconf := mkAconf { a_maxv : Z; a_steps : Z; a_cal : bool; a_win : Z; a_tf : option (Z -> Z); a_raw : option Z }.

(* a_lo/a_hi: __cal_min/__cal_max (set together); a_fac: the width __cal_max - __cal_min with which __cal_factor was last computed
   (None: attribute not set yet); a_last: __last_value *)
Record analog := mkAnalog { a_period : period; a_last : Z; a_lohi : option (Z * Z); a_fac : option Z }.

(* AnalogAction.py:38, 45, 50-51; [i] = int(1000 / max_frame_rate) *)
Definition new_analog (i : Z) : analog := mkAnalog (new_period i) (-1) None None.

(* AnalogAction.py:44 int(65536 / num_steps), num_steps > 0 *)
Definition step_width (c : aconf) : Z := Z.quot 65536 (a_steps c).

(* Python round(n / d) for d > 0: to the nearest integer, ties to the even one *)
Definition round_half_even (n d : Z) : Z :=
  let q := n / d in
  let r := n mod d in
  if 2 * r <? d then q else if d <? 2 * r then q + 1 else if Z.even q then q else q + 1.

(* AnalogAction.py:106-121; None: ZeroDivisionError. Exact arithmetic instead of floats:
   int(v / (65536 / (max + 1))) = quot (v * (max + 1)) 65536 *)
Definition output (c : aconf) (value : Z) : option Z :=
  match a_tf c with
  | Some f => Some (f value)
  | None =>
      if match a_raw c with Some r => value <? r | None => false end then Some 0
      else if step_width c =? 0 then None
      else
        let v := round_half_even value (step_width c) * step_width c in
        let v := Z.quot (v * (a_maxv c + 1)) 65536 in
        let v := if v <? 0 then 0 else v in
        Some (if a_maxv c <? v then a_maxv c else v)
  end.

(* AnalogAction.py:82-95: widening of the window *)
Definition widen (x : analog) (value : Z) : analog :=
  match a_lohi x with
  | None => mkAnalog (a_period x) (a_last x) (Some (value, value)) (a_fac x)
  | Some (lo, hi) =>
      let '(lo, fac) := if value <? lo then (value, Some (hi - value)) else (lo, a_fac x) in
      let '(hi, fac) := if hi <? value then (value, Some (value - lo)) else (hi, fac) in
      mkAnalog (a_period x) (a_last x) (Some (lo, hi)) fac
  end.

(* AnalogAction.py:82-102: None: not sent; Raise: __cal_factor is not set *)
Definition calibrate (c : aconf) (x : analog) (value : Z) : res (analog * option Z) :=
  if a_cal c then
    let x1 := widen x value in
    match a_lohi x1 with
    | None => Raise                                                     (* not reached: widen sets it *)
    | Some (lo, hi) =>
        if hi - lo <? a_win c then Ok (x1, None)
        else match a_fac x1 with
             | None => Raise
             | Some w => Ok (x1, Some (Z.quot ((value - lo) * 65536) w))
             end
    end
  else Ok (x, Some value).

Inductive aevent := ASet (t : Z) (v : Z).

(* AnalogAction.py:79-141 process *)
Definition aprocess (c : aconf) (x : analog) (now value : Z) : res (analog * list aevent) :=
  let '(due, p) := p_exceeded (a_period x) now in
  let x0 := mkAnalog p (a_last x) (a_lohi x) (a_fac x) in
  if negb due then Ok (x0, [])
  else
    match calibrate c x0 value with
    | Raise => Raise
    | Ok (x1, None) => Ok (x1, [])
    | Ok (x1, Some value') =>
        match output c value' with
        | None => Raise
        | Some v =>
            if a_last x1 =? v then Ok (x1, [])
            else Ok (mkAnalog (a_period x1) v (a_lohi x1) (a_fac x1), [ASet now v])
        end
    end.

(* A history of polls (time, reading) *)
Fixpoint arun (c : aconf) (x : analog) (ops : list (Z * Z)) : res (analog * list aevent) :=
  match ops with
  | [] => Ok (x, [])
  | (now, value) :: ops' =>
      match aprocess c x now value with
      | Raise => Raise
      | Ok (x1, e1) => match arun c x1 ops' with Raise => Raise | Ok (x2, e2) => Ok (x2, e1 ++ e2) end
      end
  end.
