(* How texts are broken into lines on the display of the emulated controller: /repo/web/htdocs/python/wrappers/wrap_adafruit_display.py 77-107 (wrap_text_to_pixels),
   with content/lib/pyswitch/ui/elements.py 201-214 (__wrap_text).
   Left out: indents, which are ignored by the code, too. Simplification: ASCII texts. *)
From Coq Require Import String Ascii.
From Verif.Lib Require Import Base.
Local Open Scope list_scope.

(* Whitespace for str.split() and str.splitlines() *)
Definition blank (c : ascii) : bool := let n := nat_of_ascii c in ((Nat.leb 9 n && Nat.leb n 13) || (Nat.leb 28 n && Nat.leb n 32))%bool.
(* 91: string.split(). [w]: the word which is being read *)
Fixpoint split (s w : string) : list string :=
  match s with
  | EmptyString => if String.eqb w "" then [] else [w]
  | String c s => if blank c then (if String.eqb w "" then split s "" else w :: split s "") else split s (w ++ String c EmptyString)
  end.

Section Wrap.
(* ctx.measureText(...).width *)
Variable width : string -> Z.
Variable max_width : Z.
(* 95-102: the loop over the words. Result: the lines which are complete and the current one *)
Definition step (a : list string * string) (word : string) : list string * string :=
  let (out, line) := a in
  let tmp_line := (line ++ " " ++ word)%string in
  if max_width <? width tmp_line then (out ++ [line], word) else (out, tmp_line).
(* 88-107 *)
Definition wrap_words (words : list string) : list string :=
  let (out, line) := fold_left step words ([], EmptyString) in
  if String.eqb line "" then out else out ++ [line].
Definition wrap (s : string) : list string := wrap_words (split s "").
(* elements.py 206-214: the lines are joined *)
Definition newline : ascii := ascii_of_nat 10.
Fixpoint join (l : list string) : string :=
  match l with
  | [] => EmptyString
  | [x] => x
  | x :: r => (x ++ String newline (join r))%string
  end.
Definition wrap_text (s : string) : string := join (wrap s).
End Wrap.
