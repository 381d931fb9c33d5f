(* What the dialog for the properties of an action should do, said without its functions. *)
From Coq Require Import String Ascii.
From Verif.Lib Require Import Base.
From Verif.Model Require Import Properties.
Open Scope string_scope.
Open Scope Z_scope.
Local Open Scope list_scope.

Fixpoint has (c : ascii) (s : string) : Prop := match s with EmptyString => False | String d s => d = c \/ has c s end.
Definition single_line (s : string) : Prop := ~ has "010"%char s /\ ~ has "013"%char s.
Definition unquoted (s : string) : Prop := ~ has dquote s /\ ~ has squote s.

(* The value of an argument in a call: what is given, or else the default in Python *)
Fixpoint argument (n : string) (args : list (option string * value)) : option value :=
  match args with [] => None | (Some m, v) :: args => if string_dec m n then Some v else argument n args | (None, _) :: args => argument n args end.
Definition given (p : param) (args : list (option string * value)) : option value :=
  match argument (p_name p) args with Some v => Some v | None => option_map Code (p_default p) end.
(* A call which Python accepts, with all arguments given by name *)
Record valid_call (ps : list param) (args : list (option string * value)) : Prop := {
  vc_params : NoDup (map p_name ps);
  vc_names : Forall (fun a => exists p, In p ps /\ fst a = Some (p_name p)) args;
  vc_once : NoDup (map fst args);
  vc_required : forall p, In p ps -> given p args <> None
}.

(* The second string is the first one with single instead of double quotes *)
Inductive requoted : string -> string -> Prop :=
| rq_end : requoted "" ""
| rq_quote s t : requoted s t -> requoted (String dquote s) (String squote t)
| rq_char c s t : c <> dquote -> requoted s t -> requoted (String c s) (String c t).
(* The same value in Python: the same code, or only the kind of quotes differs, and no quotes of the other kind are within *)
Inductive same_value : value -> value -> Prop :=
| same_refl v : same_value v v
| same_quotes s t : ~ has squote s -> requoted s t -> same_value (Code s) (Code t).

(* Values the input for a parameter can show *)
Inductive fits (p : param) : value -> Prop :=
| fits_bool s : type_of p = "bool" -> s = "True" \/ s = "False" -> fits p (Code s)
| fits_choice l s : type_of p = "int" \/ type_of p = "select" -> options p = Some l -> In s l -> s <> "" -> ~ has dquote s -> fits p (Code s)
| fits_number s : type_of p = "int" -> options p = None -> is_number s = true -> fits p (Code s)
| fits_text c t : type_of p = "text" -> c = dquote \/ c = squote -> unquoted t -> single_line t -> fits p (Code (String c (t ++ String c "")))
| fits_raw s : type_of p = "text" -> In s (p_raw p) -> unquoted s -> single_line s -> s <> "" -> fits p (Code s)
| fits_pages l : type_of p = "pages" -> Forall (fun g => single_line (g_id g) /\ single_line (g_color g) /\ single_line (g_text g)) l -> fits p (Pages l)
| fits_free s : ~ In (type_of p) ["bool"; "int"; "text"; "pages"; "select-page"] -> (type_of p = "select" -> options p = None) ->
    single_line s -> s <> "" -> ~ has dquote s \/ ~ has squote s -> fits p (Code s).
(* The same for parameters which take a page of a pager: pages which are known when the value is set *)
Definition takes_page (k : kind) (p : param) : Prop := match k with Plain => False | Pager => p_name p = "select_page" | Proxy ids => ids <> None /\ p_name p = "page_id" end.
Inductive shows (k : kind) (args : list (option string * value)) (p : param) : value -> Prop :=
| shows_value v : ~ takes_page k p -> fits p v -> shows k args p v
| shows_pager before l after s : k = Pager -> p_name p = "select_page" -> type_of p = "select-page" -> p_default p = Some "None" ->
    args = before ++ (Some "pages", Pages l) :: after -> argument "select_page" before = None -> s = "None" \/ In s (map g_id l) -> s <> "" -> ~ has dquote s -> shows k args p (Code s)
| shows_proxy ids s : k = Proxy (Some ids) -> p_name p = "page_id" -> type_of p = "select-page" -> argument "page_id" args <> None -> In s ids -> s <> "" -> ~ has dquote s -> shows k args p (Code s).
(* The metadata has no other default than Python *)
Definition honest (p : param) : Prop := p_meta p = None \/ p_meta p = p_default p.

(* The pager has exactly one list of pages *)
Definition one_list (k : kind) (ps : list param) : Prop := k = Pager -> (exists p, In p ps /\ p_name p = "pages" /\ type_of p = "pages") /\ forall p, In p ps -> type_of p = "pages" -> p_name p = "pages".
(* Opening the dialog for a call and applying it at once gives a call which does the same *)
Definition keeps (k : kind) (ps : list param) (args : list (option string * value)) : Prop :=
  exists f args', open k ps args = Some f /\ commit f = Some args' /\ valid_call ps args' /\
    forall p, In p ps -> exists v v', given p args = Some v /\ given p args' = Some v' /\ same_value v v'.
(* The dialogs one can get to from a call *)
Definition reached (k : kind) (ps : list param) (args : list (option string * value)) (f : form) : Prop :=
  exists f0 es, open k ps args = Some f0 /\ f = fold_left (edit_form k) es f0.

(* String literals of Python within single quotes, with the escapes for quotes and backslashes; None: this is no literal *)
Definition backslash : ascii := "092"%char.
Fixpoint read_literal (s : string) : option string :=
  match s with
  | EmptyString => None
  | String c r =>
      if ascii_dec c squote then match r with EmptyString => Some "" | _ => None end
      else if ascii_dec c backslash
      then match r with
           | String d r' => match read_literal r' with Some t => Some (if orb (Ascii.eqb d squote) (orb (Ascii.eqb d dquote) (Ascii.eqb d backslash)) then String d t else String c (String d t)) | None => None end
           | EmptyString => None
           end
      else match read_literal r with Some t => Some (String c t) | None => None end
  end.
Definition literal (s : string) : option string := match s with String c r => if ascii_dec c squote then read_literal r else None | EmptyString => None end.

(* The second string is the first one without its quotes *)
Inductive without_quotes : string -> string -> Prop :=
| wq_end : without_quotes "" ""
| wq_quote c s t : c = dquote \/ c = squote -> without_quotes s t -> without_quotes (String c s) t
| wq_char c s t : c <> dquote -> c <> squote -> without_quotes s t -> without_quotes (String c s) (String c t).
(* What the user means by an input *)
Inductive means (p : param) : edit -> string -> Prop :=
| means_tick n b : type_of p = "bool" -> means p (Tick n b) (if b then "True" else "False")
| means_pick n l s : type_of p = "int" \/ type_of p = "select" -> options p = Some l -> In s l -> s <> "" -> means p (Pick n s) s
| means_number n s : type_of p = "int" -> options p = None -> is_number s = true -> means p (Type_ n s) s
| means_raw n s : type_of p = "text" -> In s (p_raw p) -> unquoted s -> single_line s -> s <> "" -> means p (Type_ n s) s
| means_text n s : type_of p = "text" -> single_line s -> s <> "" -> means p (Type_ n s) s
| means_free n s : ~ In (type_of p) ["bool"; "int"; "text"; "pages"; "select-page"] -> (type_of p = "select" -> options p = None) -> single_line s -> s <> "" -> means p (Type_ n s) s.
(* How it is written: as it is, texts as literal without the quotes in it (if there are no backslashes), unless the text is one of the exceptions *)
Inductive entered_as (p : param) (e : edit) (s : string) : value -> Prop :=
| as_is : type_of p <> "text" -> entered_as p e s (Code s)
| as_raw : type_of p = "text" -> In s (p_raw p) -> entered_as p e s (Code s)
| as_text t r : type_of p = "text" -> without_quotes s t -> (~ has backslash s -> literal r = Some t) -> entered_as p e s (Code r).

(* What a parameter of a new action begins with: the default of the metadata, else the one of Python, else one which depends on the type *)
Inductive starts (p : param) : string -> Prop :=
| st_meta d : p_meta p = Some d -> p_type p = Some "color" -> single_line d -> d <> "" -> starts p d
| st_default d : p_meta p = None -> p_default p = Some d -> p_type p = Some "color" -> single_line d -> d <> "" -> starts p d
| st_color : p_meta p = None -> p_default p = None -> p_type p = Some "color" -> starts p "(0, 0, 0)"
| st_bool : p_meta p = None -> p_default p = None -> p_type p = Some "bool" -> starts p "False"
| st_min m : p_meta p = None -> p_default p = None -> p_type p = Some "int" -> p_values p = None -> p_found p = None -> p_min p = Some m -> is_number m = true -> starts p m
| st_zero : p_meta p = None -> p_default p = None -> p_type p = Some "int" -> p_values p = None -> p_found p = None -> p_min p = None -> starts p "0"
| st_first v l : p_meta p = None -> p_default p = None -> p_type p = Some "select" -> p_values p = Some (v :: l) -> v <> "" -> starts p v
| st_text : p_meta p = None -> p_default p = None -> p_type p = Some "text" -> ~ In "" (p_raw p) -> starts p (String squote (String squote ""))
| st_none : p_meta p = None -> p_default p = None -> p_type p = None -> starts p "None".
(* The input of a parameter: a check box for booleans, the listed values (before those found elsewhere) or a number for numbers, the values for selections *)
Inductive has_input (p : param) : widget -> Prop :=
| in_bool b : p_type p = Some "bool" -> has_input p (Check b)
| in_untyped b d : p_type p = None -> p_meta p = None -> p_default p = Some d -> d = (if b : bool then "True" else "False") -> has_input p (Check b)
| in_listed l v : p_type p = Some "int" \/ p_type p = Some "select" -> p_values p = Some l -> has_input p (Choice l v)
| in_found l v : p_type p = Some "int" \/ p_type p = Some "select" -> p_values p = None -> p_found p = Some l -> has_input p (Choice l v)
| in_number v : p_type p = Some "int" -> p_values p = None -> p_found p = None -> has_input p (Number v)
| in_text v : p_type p = Some "text" \/ p_type p = Some "color" -> has_input p (Field v).
(* Parameters the list above speaks about *)
Definition listed (p : param) : Prop :=
  (exists t, p_type p = Some t /\ (t = "bool" \/ t = "int" \/ t = "text" \/ t = "color" \/ (t = "select" /\ (p_values p <> None \/ p_found p <> None)))) \/
  (p_type p = None /\ p_meta p = None /\ (p_default p = Some "True" \/ p_default p = Some "False")).
