(* Model of the dialog of the web application which edits the properties of an action:
   /repo/web/htdocs/js/ui/parser/ActionProperties.js, PagerProperties.js, ParserFrontendInput.js 352-470 (promptEditAction, #promptAction),
   /repo/web/htdocs/js/model/parser/ParameterMeta.js, ParameterRange.js, /repo/web/htdocs/js/misc/Tools.js 95-107.
   Left out: layout, comments, icons, the name, variable and hold option of the action (which are taken over as they are), the order of the parameters in
   the dialog (arguments are written with their names, so the order does not matter), parameters called hold, assign or pager (no action has them). *)
From Coq Require Import String Ascii.
From Verif.Lib Require Import Base.
Open Scope string_scope.
Open Scope Z_scope.
Local Open Scope list_scope.

(* Strings *)
Definition dquote : ascii := "034"%char.
Definition squote : ascii := "039"%char.
Fixpoint map_string (f : ascii -> ascii) (s : string) : string := match s with EmptyString => EmptyString | String c s => String (f c) (map_string f s) end.
Fixpoint filter_string (f : ascii -> bool) (s : string) : string := match s with EmptyString => EmptyString | String c s => if f c then String c (filter_string f s) else filter_string f s end.
(* ActionProperties.js 627: value.replaceAll: double quotes become single ones *)
Definition swap (s : string) : string := map_string (fun c => if Ascii.eqb c dquote then squote else c) s.
(* Tools.js 98-107: stripQuotes, autoQuote *)
Definition strip_quotes (s : string) : string := filter_string (fun c => negb (Ascii.eqb c dquote || Ascii.eqb c squote)) s.
Definition auto_quote (s : string) : string := String squote (strip_quotes s ++ String squote "").
(* The value of a text field never has line breaks (HTML: value sanitization of input elements of type text) *)
Definition line (s : string) : string := filter_string (fun c => negb (Ascii.eqb c "010"%char || Ascii.eqb c "013"%char)) s.
(* The value of a number field is a number, or empty (HTML: value sanitization of input elements of type number) *)
Definition is_digit (c : ascii) : bool := let n := nat_of_ascii c in (Nat.leb 48 n && Nat.leb n 57)%bool.
Fixpoint skip_digits (s : string) : string := match s with String c r => if is_digit c then skip_digits r else s | EmptyString => s end.
Definition digits (s : string) : option string := match s with String c r => if is_digit c then Some (skip_digits r) else None | EmptyString => None end.
Definition exponent (s : string) : bool :=
  match s with
  | EmptyString => true
  | String c r => (Ascii.eqb c "e" || Ascii.eqb c "E") && match digits (match r with String d r' => if Ascii.eqb d "+" || Ascii.eqb d "-" then r' else r | _ => r end) with Some EmptyString => true | _ => false end
  end.
Definition fraction (s : string) : bool := match s with String c r => if Ascii.eqb c "." then match digits r with Some r => exponent r | None => false end else exponent s | EmptyString => true end.
Definition is_number (s : string) : bool :=
  let s := match s with String c r => if Ascii.eqb c "-" then r else s | EmptyString => s end in
  match digits s with Some r => fraction r | None => match s with String c _ => Ascii.eqb c "." && fraction s | EmptyString => false end end.
Definition number (s : string) : string := if is_number s then s else "".
(* Does parseInt return a number which is not zero? *)
Definition is_hex (c : ascii) : bool := let n := nat_of_ascii c in (is_digit c || (Nat.leb 97 n && Nat.leb n 102) || (Nat.leb 65 n && Nat.leb n 70))%bool.
Fixpoint nonzero (ok : ascii -> bool) (s : string) : bool := match s with String c r => ok c && (negb (Ascii.eqb c "0") || nonzero ok r) | EmptyString => false end.
Fixpoint trim (s : string) : string := match s with String c r => if Ascii.eqb c " " || Ascii.eqb c "009" || Ascii.eqb c "010" || Ascii.eqb c "013" then trim r else s | EmptyString => s end.
Definition parses (s : string) : bool :=
  let s := match trim s with String c r => if Ascii.eqb c "+" || Ascii.eqb c "-" then r else String c r | EmptyString => EmptyString end in
  match s with
  | String "0" (String c r) => if Ascii.eqb c "x" || Ascii.eqb c "X" then nonzero is_hex r else nonzero is_digit s
  | _ => nonzero is_digit s
  end.

(* Pages of a pager: id, color and text (empty if there is none) *)
Record page := { g_id : string; g_color : string; g_text : string }.
(* A parameter of an action: its name and its default in Python, and its metadata: the type, the default, the list of values, the values the dialog finds
   otherwise (displays, mappings, key codes, ranges: ParameterMeta.js 59-122), texts which are not quoted, and the lower end of the range *)
Record param := { p_name : string; p_default : option string; p_type : option string; p_meta : option string; p_values : option (list string); p_found : option (list string); p_raw : list string; p_min : option string }.

(* ParameterMeta.js 59-122: getValues *)
Definition options (p : param) : option (list string) := match p_values p with Some l => Some l | None => p_found p end.
(* ParameterMeta.js 213-255: getDefaultValue. None: fails. Empty strings count as no default. *)
Definition default_value (p : param) : option string :=
  match p_meta p with
  | Some d => Some d
  | None =>
      match p_default p with
      | Some d => Some d
      | None =>
          match p_type p with
          | None => Some "None"
          | Some t =>
              if String.eqb t "int" || String.eqb t "float" then Some (match p_min p with Some m => m | None => "0" end)
              else if String.eqb t "select" || String.eqb t "select-page" then match p_values p with None => Some "" | Some (v :: _) => Some v | Some [] => None end
              else if String.eqb t "bool" then Some "False"
              else if String.eqb t "color" then Some "(0, 0, 0)"
              else if String.eqb t "text" then Some "" else None
          end
      end
  end.
(* ParameterMeta.js 35-48: type (empty if there is none) *)
Definition type_of (p : param) : string :=
  match p_type p with
  | Some t => t
  | None => match default_value p with Some d => if String.eqb d "True" || String.eqb d "False" then "bool" else if parses d then "int" else "" | None => "" end
  end.

(* Values of arguments: code or pages (ParserInputAction.js 79-104). Nothing is the value of a selection without any choice. *)
Inductive value := Code (s : string) | Pages (l : list page) | Nothing.
(* Inputs: check box, number, selection with its options, text, list of pages *)
Inductive widget := Check (b : bool) | Number (v : string) | Choice (l : list string) (v : option string) | Field (v : string) | PageList (l : list page).

(* jQuery: setting the value of a selection chooses the option, if there is one *)
Definition choose (l : list string) (v : string) : option string := if in_dec string_dec v l then Some v else None.
(* ActionProperties.js 440-486: #createInput, 635-648: #getNumberInput *)
Definition create (p : param) : option widget :=
  let t := type_of p in
  if String.eqb t "select-page" then Some (Choice [] None)
  else if String.eqb t "pages" then Some (PageList [])
  else
    match default_value p with
    | None => None
    | Some d =>
        Some (if String.eqb t "bool" then Check (String.eqb d "True")
              else if String.eqb t "int" then match options p with Some l => Choice l (choose l d) | None => Number (number d) end
              else if String.eqb t "select" then match options p with Some l => Choice l (choose l d) | None => Field (line d) end
              else Field (line d))
    end.
(* ActionProperties.js 613-630: #setInputValue; PagesList.js 34-57: set. None: fails. *)
Definition set_value (w : widget) (v : value) : option widget :=
  match w, v with
  | Check _, Code s => Some (Check (String.eqb s "True"))
  | Check _, _ => Some (Check false)
  | PageList _, Pages l => Some (PageList (map (fun g => {| g_id := line (g_id g); g_color := line (g_color g); g_text := line (g_text g) |}) l))
  | PageList _, _ => None
  | Number _, Code s => Some (Number (number (swap s)))
  | Choice l _, Code s => Some (Choice l (choose l (swap s)))
  | Field _, Code s => Some (Field (line (swap s)))
  | _, _ => None
  end.
(* ParameterMeta.js 260-281: convertInput *)
Definition convert (p : param) (s : string) : string := if String.eqb (type_of p) "text" then if in_dec string_dec s (p_raw p) then s else auto_quote s else s.
(* ActionProperties.js 596-608: #getInputValue; PagesList.js 105-129: get *)
Definition get_value (p : param) (w : widget) : option value :=
  match w with
  | Check b => Some (Code (if b then "True" else "False"))
  | PageList l => Some (Pages l)
  | Choice _ None => Some Nothing
  | Choice _ (Some s) | Number s | Field s =>
      if string_dec s "" then match default_value p with Some d => Some (Code (convert p d)) | None => None end else Some (Code (convert p s))
  end.

(* The dialog for an action: a normal one, a pager, or one which selects pages of a pager (with the ids of its pages, if there is such a pager) *)
Inductive kind := Plain | Pager | Proxy (ids : option (list string)).
Definition form := list (param * widget).
Definition entry (n : string) (f : form) : option (param * widget) := find (fun e => String.eqb (p_name (fst e)) n) f.
(* PagerProperties.js 102-155: #updateInputs *)
Fixpoint page_list (f : form) : option (list page) := match f with [] => None | (_, PageList l) :: _ => Some l | _ :: f => page_list f end.
Definition update_choice (n : string) (l : list string) (keep : option string -> option string) (f : form) : form :=
  map (fun e => match e with (p, Choice _ v) => if String.eqb (p_name p) n then (p, Choice l (match keep v with Some v => choose l v | None => None end)) else e | _ => e end) f.
Definition update (k : kind) (f : form) : form :=
  match k with
  | Plain => f
  | Pager => match page_list f with Some l => update_choice "select_page" (map g_id l ++ ["None"]) (fun v => match v with Some v => if string_dec v "" then Some "None" else Some v | None => Some "None" end) f | None => f end
  | Proxy None => f
  | Proxy (Some ids) => update_choice "page_id" ids (fun v => v) f
  end.
(* ActionProperties.js 371-385: setArgument, for arguments with or without name. None: fails. *)
Definition put_widget (n : string) (w : widget) (f : form) : form := map (fun e => if String.eqb (p_name (fst e)) n then (fst e, w) else e) f.
Definition set_argument (k : kind) (f : form) (n : option string) (v : value) : option form :=
  let f := update k f in
  match n with
  | None => None
  | Some n => match entry n f with
              | None => None
              | Some (p, w) => match set_value w v with None => None | Some w => Some (update k (put_widget n w f)) end
              end
  end.
(* ActionProperties.js 43-197: get, without an action selected before *)
Fixpoint create_all (ps : list param) : option form :=
  match ps with [] => Some [] | p :: ps => match create p, create_all ps with Some w, Some f => Some ((p, w) :: f) | _, _ => None end end.
(* ActionProperties.js 351-366: setArguments *)
Fixpoint set_arguments (k : kind) (f : form) (args : list (option string * value)) : option form :=
  match args with
  | [] => Some (update k f)
  | (n, v) :: args =>
      match set_argument k f n v with
      | None => None
      | Some f => match n with
                  | Some n => match entry n f with Some (p, _) => match default_value p with Some _ => set_arguments k f args | None => None end | None => None end
                  | None => None
                  end
      end
  end.
(* ParserFrontendInput.js 390-470: the dialog for an existing action *)
Definition open (k : kind) (ps : list param) (args : list (option string * value)) : option form :=
  match create_all ps with None => None | Some f => set_arguments k (update k f) args end.

(* ActionProperties.js 257-297: createActionDefinition *)
Definition omitted (p : param) (v : value) : bool := match p_default p, v with Some d, Code s => String.eqb s d | _, _ => false end.
Fixpoint commit (f : form) : option (list (option string * value)) :=
  match f with
  | [] => Some []
  | (p, w) :: f => match get_value p w, commit f with Some v, Some l => Some (if omitted p v then l else (Some (p_name p), v) :: l) | _, _ => None end
  end.

(* What the user does in the dialog: check boxes, selections, fields *)
Inductive edit := Tick (n : string) (b : bool) | Pick (n : string) (v : string) | Type_ (n : string) (v : string).
Definition target (e : edit) : string := match e with Tick n _ | Pick n _ | Type_ n _ => n end.
Definition enter (e : edit) (w : widget) : widget :=
  match e, w with
  | Tick _ b, Check _ => Check b
  | Pick _ v, Choice l o => match choose l v with Some v => Choice l (Some v) | None => w end
  | Type_ _ v, Number _ => Number (number v)
  | Type_ _ v, Field _ => Field (line v)
  | _, _ => w
  end.
Definition edit_form (k : kind) (f : form) (e : edit) : form :=
  update k (map (fun x => if String.eqb (p_name (fst x)) (target e) then (fst x, enter e (snd x)) else x) f).

(* ActionProperties.js 50-60: takeOverValues, when another action is selected in the dialog. None: fails. *)
Definition take_over (old : form) (p : param) (w : widget) : option widget :=
  if String.eqb (type_of p) "text" then Some w
  else match entry (p_name p) old with
       | None => Some w
       | Some (q, w0) =>
           match get_value q w0 with
           | None => None
           | Some Nothing => Some w
           | Some v => match default_value q with
                       | None => None
                       | Some d => if match v with Code s => String.eqb s d | _ => false end then Some w else set_value w v
                       end
           end
       end.
Fixpoint take_all (old f : form) : option form :=
  match f with [] => Some [] | (p, w) :: f => match take_over old p w, take_all old f with Some w, Some f => Some ((p, w) :: f) | _, _ => None end end.
Definition select (k : kind) (ps : list param) (old : form) : option form :=
  match create_all ps with None => None | Some f => match take_all old f with None => None | Some f => Some (update k f) end end.
