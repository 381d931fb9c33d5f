(* The dialog for the general settings of a switch in the web application: /repo/web/htdocs/js/ui/parser/InputSettings.js, js/model/parser/ParserInput.js 42-78, ParserTreeElement.js 32-62,
   Parser.js 188-212 (inputData), and what the firmware makes of them (content/lib/pyswitch/controller/inputs.py 8, 44, 57-61).
   Left out: that the emulated controller is restarted (Runner.v), and how the configuration is written (Edit.v). *)
From Coq Require Import String Ascii DecimalString.
From Verif.Lib Require Import Base.
From Verif.Model Require Import Properties Label Pages.
Local Open Scope list_scope.
Local Open Scope Z_scope.

(* An input of the configuration: its arguments, with their code. The assignment (Parser.js 194-201) is one of them *)
Definition args := list (string * string).
(* ParserTreeElement.js 32-40: getArgument *)
Fixpoint get_arg (name : string) (a : args) : option string :=
  match a with [] => None | (n, v) :: r => if String.eqb n name then Some v else get_arg name r end.
(* 45-62: setArgument *)
Fixpoint set_arg (name value : string) (a : args) : args :=
  match a with
  | [] => [(name, value)]
  | (n, v) :: r => if String.eqb n name then (n, value) :: r else (n, v) :: set_arg name value r
  end.
(* Parser.js 206-211: the first input with the assignment *)
Definition is_input (assignment : string) (i : args) : bool := match get_arg "assignment" i with Some v => String.eqb v assignment | None => false end.
Definition find_input (assignment : string) (c : list args) : option args := find (is_input assignment) c.
Fixpoint change_input (assignment : string) (f : args -> args) (c : list args) : list args :=
  match c with [] => [] | i :: r => if is_input assignment i then f i :: r else i :: change_input assignment f r end.

(* "" + parseInt(htm) (ParserInput.js 58) *)
Definition js_number (n : option Z) : string := match n with Some z => dec z | None => "NaN" end.
(* What the user does in the dialog: the value of the field, the state of the checkbox *)
Inductive change := Time (typed : string) | Repeat (on : bool).
(* InputSettings.js 31-58, ParserInput.js 53-60, 72-77 *)
Definition change_args (o : change) (i : args) : args :=
  match o with
  | Time t => set_arg "holdTimeMillis" (js_number (parse_int t)) i
  | Repeat b => set_arg "holdRepeat" (if b then "True" else "False") i
  end.
(* ParserInput.js 16-31: the input is looked for again. If it is not in the configuration, there is no ParserInput (InputSettings.js 38, 50 raise), and nothing changes *)
Definition step (assignment : string) (c : list args) (o : change) : list args :=
  match find_input assignment c with None => c | Some _ => change_input assignment (change_args o) c end.
Definition run (assignment : string) (c : list args) (h : list change) : list args := fold_left (step assignment) h c.

(* InputSettings.js 28, 47, ParserInput.js 43-48: the time which is shown when the dialog is opened *)
Definition shown_time (i : option args) : Z :=
  match i with
  | None => 600
  | Some i =>
      match get_arg "holdTimeMillis" i with
      | None => 600
      | Some v => if String.eqb v "" then 600 else match parse_int (strip_quotes v) with Some n => if n =? 0 then 600 else n | None => 600 end
      end
  end.
(* InputSettings.js 33, ParserInput.js 64-69 *)
Definition shown_repeat (i : option args) : bool :=
  match i with None => false | Some i => match get_arg "holdRepeat" i with Some v => String.eqb v "True" | None => false end end.

(* What the firmware takes. Simplification: code which is no decimal number (no truth value) is unknown: None *)
Definition python_int (s : string) : option Z :=
  match NilZero.int_of_string s with Some i => if String.eqb (dec (Z.of_int i)) s then Some (Z.of_int i) else None | None => None end.
(* inputs.py 57-61 *)
Definition used_time (i : args) : option Z := match get_arg "holdTimeMillis" i with None => Some 600 | Some v => python_int v end.
(* inputs.py 44 *)
Definition used_repeat (i : args) : option bool :=
  match get_arg "holdRepeat" i with None => Some false | Some v => if String.eqb v "True" then Some true else if String.eqb v "False" then Some false else None end.
