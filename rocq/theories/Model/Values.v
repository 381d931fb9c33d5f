(* Values shown as texts: clients/kemper/actions/rig_transpose.py, clients/kemper/callbacks/convert_volume.py *)
From Verif.Lib Require Import Base.
From Coq Require Import String DecimalString QArith Qround.
From Verif.Model Require Import Midi Encoder.
Local Open Scope Z_scope.

(* str() of an integer *)
Definition str_int (z : Z) : string := NilZero.string_of_int (Z.to_int z).

(* rig_transpose.py:23-37: limits 28 and 100, one per step, RIG_ID as reset mapping; [pre]: an accept action is given; [preview]: a
   preview display is given *)
Definition transpose_encoder (pre preview : bool) : econf := mkEconf 28 100 1 1 pre preview true false.

(* rig_transpose.py:40-42 _convert_transpose *)
Definition transpose_text (value : Z) : string :=
  let halfsteps := value - 64 in
  ("Transpose: " ++ (if (0 <? halfsteps)%Z then "+" else "") ++ str_int halfsteps)%string.

(* EncoderAction.py:174-182: the texts which are shown, in order *)
Definition texts (ev : list eevent) : list string := flat_map (fun e => match e with EShow v => [transpose_text v] | _ => [] end) ev.

(* convert_volume.py:4-8. Simplification: exact numbers instead of floats. None: division by zero. *)
Definition volume_out (value offset : Q) : option Q :=
  if Qle_bool 30 value then Some (value * (24 # 100) - 24 + offset)%Q
  else if Qeq_bool (value + 2) 0 then None
  else Some (- (1666666666 # 10000000) / (value + 2) - (116 # 10) + offset)%Q.

(* round(out, 1), in tenths: to the nearest, and to the even one if two are as near *)
Definition round1 (q : Q) : Z :=
  let n := Qfloor (q * 10 + (1 # 2))%Q in
  if Qeq_bool (inject_Z n) (q * 10 + (1 # 2))%Q && Z.odd n then n - 1 else n.

(* convert_volume.py:10. repr of a float with at most one decimal; negative zero has a sign. Simplification: no exponents. *)
Definition volume_text (value offset : Q) : option string :=
  match volume_out value offset with
  | None => None
  | Some out =>
      let t := Z.abs (round1 out) in
      Some ((if negb (Qle_bool out 0) then "+" else "") ++ (if negb (Qle_bool 0 out) then "-" else "") ++
            str_int (t / 10)%Z ++ "." ++ str_int (t mod 10)%Z ++ "dB")%string
  end.
