(* Model of the list of pages of a pager, of the names chosen for new pagers and encoder buttons, and of the color fields in the web application:
   /repo/web/htdocs/js/ui/parser/PagesList.js, PagerProperties.js 208-224, ActionPropertiesEncoder.js 19-35, ActionProperties.js 535-575,
   /repo/web/htdocs/js/misc/Tools.js 64-107.
   Left out: layout, tooltips, the events passed on to the dialog (#onChange), line breaks in text fields. *)
From Coq Require Import String Ascii HexadecimalString DecimalString.
From Verif.Lib Require Import Base.
From Verif.Model Require Import Properties Label.
Open Scope string_scope.
Open Scope Z_scope.
Local Open Scope list_scope.

(* --- Numbers in JavaScript --- *)

(* JavaScript: white space which parseInt skips. Simplified: the ASCII ones *)
Definition is_space (c : ascii) : bool := let n := nat_of_ascii c in ((Nat.leb 9 n && Nat.leb n 13) || Nat.eqb n 32)%bool.
Fixpoint skip_space (s : string) : string := match s with String c r => if is_space c then skip_space r else s | EmptyString => s end.
(* The longest prefix with the passed characters *)
Fixpoint prefix_of (ok : ascii -> bool) (s : string) : string := match s with String c r => if ok c then String c (prefix_of ok r) else EmptyString | EmptyString => EmptyString end.
(* JavaScript: parseInt without radix, for the text behind the sign. None is NaN. Simplified: numbers are not rounded (JavaScript rounds from 2^53 on) *)
Definition natural (s : string) : option Z :=
  match prefix_of is_digit s with EmptyString => None | d => match NilEmpty.uint_of_string d with Some u => Some (Z.of_uint u) | None => None end end.
Definition natural16 (s : string) : option Z :=
  match prefix_of is_hex s with EmptyString => None | d => match HexadecimalString.NilEmpty.uint_of_string d with Some u => Some (Z.of_hex_uint u) | None => None end end.
Definition unsigned (s : string) : option Z :=
  match s with
  | String a (String b r) => if (Ascii.eqb a "0" && (Ascii.eqb b "x" || Ascii.eqb b "X"))%bool then natural16 r else natural s
  | _ => natural s
  end.
(* JavaScript: parseInt(s) *)
Definition parse_int (s : string) : option Z :=
  match skip_space s with
  | String c r => if Ascii.eqb c "-" then option_map Z.opp (unsigned r) else if Ascii.eqb c "+" then unsigned r else unsigned (String c r)
  | EmptyString => None
  end.

(* --- The list of pages --- *)

(* PagesList.js 113-127: a page as returned by get *)
Record page := mkPage { g_id : string; g_color : option string; g_text : option string }.
(* PagesList.js 62-100: a row. i_shown is the ID which the handler of the remove button has captured (92) *)
Record item := mkItem { i_shown : string; i_id : string; i_color : string; i_text : string }.

Definition opt (s : string) : option string := if String.eqb s "" then None else Some s.
Definition val (o : option string) : string := match o with Some s => s | None => "" end.

(* PagesList.js 34-57, 62-100: set, createItem. val(undefined) of jQuery shows an empty field *)
Definition set (l : list page) : list item := map (fun g => mkItem (g_id g) (g_id g) (val (g_color g)) (val (g_text g))) l.
(* PagesList.js 105-129: get *)
Definition get (l : list item) : list page := map (fun i => mkPage (i_id i) (opt (i_color i)) (opt (i_text i))) l.

(* PagesList.js 160-170: getNextPageId. NaN > highest is false *)
Definition highest (l : list page) : Z := fold_left (fun h g => match parse_int (g_id g) with Some n => if n >? h then n else h | None => h end) l (-1).
Definition next_id (l : list page) : string := if highest l <? 0 then "1" else dec (highest l + 1).

(* PagesList.js 134-146: addPage *)
Definition add (l : list item) : list item := let g := get l in set (g ++ [mkPage (next_id g) (Some "") (Some "")]).
(* PagesList.js 151-155: removePage *)
Definition remove (id : string) (l : list item) : list item := set (filter (fun g => negb (String.eqb (g_id g) id)) (get l)).

Fixpoint change {A} (f : A -> A) (k : nat) (l : list A) : list A := match l, k with [], _ => [] | x :: r, O => f x :: r | x :: r, S k => x :: change f k r end.

(* What the user does. Swap i j: dragging (PagesList.js 200-215, action: swap) *)
Inductive event := EditId (k : nat) (s : string) | EditColor (k : nat) (s : string) | EditText (k : nat) (s : string) | Add | Remove (k : nat) | Swap (i j : nat).

(* PagesList.js 71-96; 81: the text gets quotes. Rows which do not exist cannot be edited, removed or dragged. *)
Definition step (l : list item) (e : event) : list item :=
  match e with
  | EditId k s => change (fun i => mkItem (i_shown i) s (i_color i) (i_text i)) k l
  | EditColor k s => change (fun i => mkItem (i_shown i) (i_id i) s (i_text i)) k l
  | EditText k s => change (fun i => mkItem (i_shown i) (i_id i) (i_color i) (auto_quote s)) k l
  | Add => add l
  | Remove k => match nth_error l k with Some i => remove (i_shown i) l | None => l end
  | Swap i j => match nth_error l i, nth_error l j with Some a, Some b => change (fun _ => a) j (change (fun _ => b) i l) | _, _ => l end
  end.
Definition run (l : list item) (h : list event) : list item := fold_left step h l.

(* --- Names for new actions --- *)

(* Parser.js 312-329: the actions of the configuration, with the name of the function and the variable they are assigned to *)
Definition actions (l : list (string * option string)) (name : string) : list (option string) := map snd (filter (fun a => String.eqb (fst a) name) l).
(* PagerProperties.js 211-216, ActionPropertiesEncoder.js 22-27 *)
Definition exists_name (l : list (option string)) (s : string) : bool := existsb (fun a => match a with Some t => String.eqb t s | None => false end) l.
(* PagerProperties.js 218-223, ActionPropertiesEncoder.js 29-34: the loop. None: it has not ended after n rounds *)
Fixpoint search (n : nat) (base : string) (l : list (option string)) (ret : string) (cnt : Z) : option string :=
  match n with
  | O => None
  | S n => if exists_name l ret then search n base l (base ++ dec cnt) (cnt + 1) else Some ret
  end.
Definition next_pager (n : nat) (l : list (string * option string)) : option string := search n "_pager" (actions l "PagerAction") "_pager" 2.
Definition next_encoder (n : nat) (l : list (string * option string)) : option string := search n "_encoder_button" (actions l "ENCODER_BUTTON") "_encoder_button" 2.

(* --- Colors --- *)

(* JavaScript: parseInt(s, 16) for a text without sign, white space or 0x *)
Definition parse_hex (s : string) : option Z := natural16 s.
(* Tools.js 67-75: hexToRgb for a text with # *)
Definition hex_to_rgb (s : string) : option Z * option Z * option Z := (parse_hex (substring 1 2 s), parse_hex (substring 3 2 s), parse_hex (substring 5 2 s)).
(* Tools.js 81-84: componentToHex. Simplified: NaN is not modelled (the callers below pass numbers) *)
Definition to_hex (c : Z) : string := HexadecimalString.NilZero.string_of_uint (N.to_hex_uint (Z.to_N c)).
Definition component (c : Z) : string := let h := to_hex c in if Nat.eqb (String.length h) 1 then ("0" ++ h)%string else h.
(* JavaScript: replace with a text replaces the first occurrence *)
Fixpoint replace_first (a : string) (s : string) : string :=
  if String.prefix a s then substring (String.length a) (String.length s) s else match s with String c r => String c (replace_first a r) | EmptyString => EmptyString end.
(* JavaScript: split(",") *)
Fixpoint split_comma (s : string) : list string :=
  match s with
  | EmptyString => [""]
  | String c r => if Ascii.eqb c "," then "" :: split_comma r else match split_comma r with x :: t => String c x :: t | [] => [String c ""] end
  end.
(* Tools.js 80-93: rgbToHex. None: a component is not a number *)
Definition rgb_to_hex (s : string) : option string :=
  let comps := split_comma (replace_first "rgb" (replace_first "rgba" (replace_first ")" (replace_first "(" s)))) in
  match parse_int (nth 0 comps ""), parse_int (nth 1 comps ""), parse_int (nth 2 comps "") with
  | Some r, Some g, Some b => Some ("#" ++ component r ++ component g ++ component b)%string
  | _, _, _ => None
  end.
(* ActionProperties.js 567-571: what the color picker writes into the field *)
Definition rgb_text (c : Z * Z * Z) : string := let '(r, g, b) := c in ("(" ++ dec r ++ ", " ++ dec g ++ ", " ++ dec b ++ ")")%string.
Definition pick (s : string) : option string := match hex_to_rgb s with (Some r, Some g, Some b) => Some (rgb_text (r, g, b)) | _ => None end.
