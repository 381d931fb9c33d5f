(* C106: what the texts mean. *)
From Verif.Lib Require Import Base.
From Coq Require Import String DecimalString QArith.
Local Open Scope Z_scope.

(* The transposition in half steps for a value of the parameter: 64 is none *)
Definition half_steps (value : Z) : Z := value - 64.

(* The rest of a text after a prefix *)
Fixpoint after (p s : string) : option string :=
  match p, s with
  | EmptyString, _ => Some s
  | String a p', String b s' => if Ascii.eqb a b then after p' s' else None
  | _, _ => None
  end.

(* What a user reads in the text: a number after "Transpose: ", with a plus sign exactly if it is positive *)
Definition read_steps (s : string) : option Z :=
  match after "Transpose: " s with
  | None => None
  | Some r =>
      match after "+" r with
      | Some d => match NilZero.int_of_string d with Some i => if 0 <? Z.of_int i then Some (Z.of_int i) else None | None => None end
      | None => match NilZero.int_of_string r with Some i => if 0 <? Z.of_int i then None else Some (Z.of_int i) | None => None end
      end
  end.

(* A number of tenths written with a sign, a whole part and one decimal *)
Definition says_db (sign s : string) (tenths : Z) : Prop :=
  exists whole digit, 0 <= whole /\ 0 <= digit <= 9 /\ Z.abs tenths = 10 * whole + digit /\
  (0 < tenths -> sign = "+"%string) /\ (tenths < 0 -> sign = "-"%string) /\
  s = (sign ++ NilZero.string_of_int (Z.to_int whole) ++ "." ++ NilZero.string_of_int (Z.to_int digit) ++ "dB")%string.

(* The sign for a level *)
Definition sign_of (q : Q) : string := if Qlt_le_dec 0 q then "+" else if Qlt_le_dec q 0 then "-" else "".

(* The level in dB for a volume knob at [value] percent whose highest level is [offset]: 0.24 dB per percent above 30 percent,
   a hyperbola below *)
Definition level (value offset q : Q) : Prop :=
  (30 <= value /\ q == offset - (24 # 100) * (100 - value))%Q \/
  (value < 30 /\ (q - offset + (116 # 10)) * (value + 2) == - (1666666666 # 10000000))%Q.
