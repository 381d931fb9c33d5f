(* Watching the memory of the device: /repo/content/lib/pyswitch/stats.py 11-80, misc.py 28-43 (format_size, fill_up_to).
   Left out: the percentage of free memory (59). The free memory at each call is input. *)
From Coq Require Import String Ascii DecimalString.
From Verif.Lib Require Import Base.
Local Open Scope list_scope.
Local Open Scope Z_scope.

(* misc.py 37-43: the loop runs until the length is reached *)
Fixpoint fill (s : string) (missing : nat) (c : ascii) : string := match missing with O => s | S m => fill (s ++ String c EmptyString)%string m c end.
Definition fill_up_to (s : string) (n : Z) (c : ascii) : string := if n <=? 0 then s else fill s (Z.to_nat n - String.length s) c.

(* [a] / [b] to the nearest integer, to the even one if two are as near: how a float is printed. a >= 0, b > 0 *)
Definition nearest (a b : Z) : Z := let q := a / b in let r := a mod b in if 2 * r <? b then q else if b <? 2 * r then q + 1 else if Z.even q then q else q + 1.
Definition digits (n : Z) : string := NilZero.string_of_int (Z.to_int n).
(* f"{num:3.1f}" for num = [n] / [scale]. Simplification: exact numbers, which floats are up to 2^53 *)
Definition one_decimal (n scale : Z) : string :=
  let t := nearest (10 * Z.abs n) scale in
  ((if (n <? 0)%Z then "-" else "") ++ digits (t / 10)%Z ++ "." ++ digits (t mod 10)%Z)%string.
(* misc.py 28-34 *)
Fixpoint size_loop (units : list string) (n scale : Z) (fill_to : Z) : string :=
  match units with
  | [] => fill_up_to (one_decimal n scale ++ "YiB") fill_to " "
  | u :: r => if Z.abs n <? 1024 * scale then fill_up_to (one_decimal n scale ++ " " ++ u ++ "B") fill_to " " else size_loop r n (scale * 1024) fill_to
  end.
Definition format_size (n fill_to : Z) : string := size_loop [""; "Ki"; "Mi"; "Gi"; "Ti"; "Pi"; "Ei"; "Zi"]%string n 1 fill_to.

(* A line which is printed: the start, or what has been allocated and what is free *)
Inductive line := Starting (free total : Z) | Watched (allocated free : Z).
(* TOTAL_BYTES, LAST_FREE_BYTES (17-18) *)
Record memory := { total : Z; last_free : Z; lines : list line }.
Definition new_memory : memory := {| total := -1; last_free := -1; lines := [] |}.
(* The calls, with the result of mem_free() (and mem_alloc()) *)
Inductive call := Start (free alloc : Z) | Watch (only_if_changed : bool) (free : Z).
(* 25-38, 42-68 *)
Definition step (m : memory) (c : call) : memory :=
  match c with
  | Start f a => {| total := a + f; last_free := f; lines := lines m ++ [Starting f (a + f)] |}
  | Watch only f =>
      if total m <? 0 then m
      else if only && (f =? last_free m) then m
      else {| total := total m; last_free := f; lines := lines m ++ [Watched (last_free m - f) f] |}
  end.
Definition run (h : list call) : memory := fold_left step h new_memory.
(* 51-68: the amount as text *)
Definition allocated_text (a : Z) : string :=
  ((if (0 <? a)%Z then "Allocated " else if (a <? 0)%Z then "Released  " else "          ") ++ (if (a =? 0)%Z then "            " else format_size a 12))%string.
