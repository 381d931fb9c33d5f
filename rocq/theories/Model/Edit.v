(* Changing the actions of the inputs with the web editor: /repo/web/htdocs/js/model/parser/{Parser,ParserInput,ParserInputAction,ParserTreeElement}.js and
   js/ui/parser/{ParserFrontend,ParserFrontendInput}.js. The data are those of Model/Editor.v, the inputs are the list that stands for "Inputs" of inputs.py. *)
From Verif.Lib Require Import Base.
From Verif.Model Require Import Editor.
From Coq Require Import String.
Open Scope string_scope.
Local Open Scope list_scope.

(* PySwitchParser.py:51-56 code_for_data_node: CodeGenerator.py without a parser, where values bound to a variable become its name (112-129) *)
Fixpoint code (d : data) : expr :=
  match d with
  | DCode e => e
  | DList l => EList (map (fun v => (false, code v)) l)
  | DCall f args a => match a with Some x => EName x | None => ECall f (map (fun v => (false, fst v, code (snd v))) args) end
  | DDict items a => match a with Some x => EName x | None => EDict (map (fun v => (KText (fst v), code (snd v))) items) end
  | DVal v a => match a with Some x => EName x | None => code v end
  end.

(* The "arguments" of a value: only calls and dictionaries have them. Entries of dictionaries have names *)
Definition arguments (d : data) : option (list (option string * data)) :=
  match d with DCall _ args _ => Some args | DDict items _ => Some (map (fun x => (Some (fst x), snd x)) items) | _ => None end.
(* ParserTreeElement.js 40-47 getArgument, Parser.js 195-202: the first with the name *)
Fixpoint find_arg (name : string) (args : list (option string * data)) : option data :=
  match args with
  | [] => None
  | (Some k, v) :: args => if String.eqb k name then Some v else find_arg name args
  | (None, _) :: args => find_arg name args
  end.
(* 52-69 setArgument *)
Fixpoint put_arg (name : string) (v : data) (args : list (option string * data)) : list (option string * data) :=
  match args with
  | [] => [(Some name, v)]
  | (Some k, w) :: args => if String.eqb k name then (Some k, v) :: args else (Some k, w) :: put_arg name v args
  | (None, w) :: args => (None, w) :: put_arg name v args
  end.
Fixpoint put_item (name : string) (v : data) (items : list (string * data)) : list (string * data) :=
  match items with
  | [] => [(name, v)]
  | (k, w) :: items => if String.eqb k name then (k, v) :: items else (k, w) :: put_item name v items
  end.
Definition set_argument (name : string) (v : data) (d : data) : data :=
  match d with DCall f args a => DCall f (put_arg name v args) a | DDict items a => DDict (put_item name v items) a | _ => d end.

(* Parser.js 192-212 inputData: the entry for an input of the hardware, the first one. Simplification: == is taken as equality of code
   (a list with the name as its only element would also do) *)
Definition is_for (n : string) (d : data) : bool :=
  match arguments d with Some args => match find_arg "assignment" args with Some (DCode (EName x)) => String.eqb x n | _ => false end | None => false end.
Definition list_name (hold : bool) : string := if hold then "actionsHold" else "actions".
(* ParserInput.js 83-104 actions; None: an exception, if the value is no list *)
Definition is_none (d : data) : bool := match d with DCode (EName x) => String.eqb x "None" | _ => false end.
Definition actions_of (hold : bool) (d : data) : option (list data) :=
  match arguments d with
  | None => None
  | Some args => match find_arg (list_name hold) args with None => Some [] | Some (DList l) => Some (filter (fun x => negb (is_none x)) l) | Some _ => None end
  end.

(* Pages: ParserInputAction.js 121-136 decodePages with ParserInput.js 150-175 encodePage; None: an exception, here or when the code is generated *)
Definition repage (d : data) : option data :=
  match arguments d with
  | None => None
  | Some args => match find_arg "id" args with
                 | None => None
                 | Some i => Some (DDict (("id", i) :: (match find_arg "color" args with Some c => [("color", c)] | None => [] end) ++
                                          (match find_arg "text" args with Some t => [("text", t)] | None => [] end)) None)
                 end
  end.
Definition is_pages (f : expr) (k : option string) : bool :=
  match f, k with EName x, Some y => String.eqb x "PagerAction" && String.eqb y "pages" | _, _ => false end.
(* ParserInputAction.js 81-105 arguments, with ParserInput.js 112-135 *)
Definition rearg (f : expr) (x : option string * data) : option (option string * data) :=
  if is_pages f (fst x) then match snd x with DList l => match mapM repage l with Some l' => Some (fst x, DList l') | None => None end | _ => None end
  else Some (fst x, DCode (code (snd x))).
(* An action which is in the frontend as it is written again (ParserFrontendInput.js 315-327, 549-557, 581-590, 611-619); None: an exception. Actions
   which are no calls have no name, for which no code can be generated *)
Definition rewritten (d : data) : option data :=
  match d with DCall f args a => match mapM (rearg f) args with Some args' => Some (DCall f args' a) | None => None end | _ => None end.

(* An action as the dialog defines it (ActionProperties.js 257-287): the name, the variable (None: none is given) and the arguments, where pages are given as such *)
Inductive value := VCode (e : expr) | VPages (l : list (expr * option expr * option expr)).
Record definition := { d_name : expr; d_assign : option string; d_args : list (string * value) }.
Definition prepared_page (p : expr * option expr * option expr) : data :=
  let '(i, c, t) := p in
  DDict (("id", DCode i) :: (match c with Some c => [("color", DCode c)] | None => [] end) ++ (match t with Some t => [("text", DCode t)] | None => [] end)) None.
Definition prepared_arg (x : string * value) : option string * data :=
  (Some (fst x), match snd x with VCode e => DCode e | VPages l => DList (map prepared_page l) end).
(* ParserInput.js 112-135 *)
Definition prepared (d : definition) : data := DCall (d_name d) (map prepared_arg (d_args d)) (d_assign d).

(* The first entry for n is changed; if there is none, one is added (Parser.js 160-180). Simplification: when one is added, the code is saved and
   loaded again before going on; here this is left out *)
Fixpoint on_input (n : string) (f : data -> option data) (l : list data) : option (list data) :=
  match l with
  | [] => match f (DDict [("assignment", DCode (EName n))] None) with Some d => Some [d] | None => None end
  | x :: l => if is_for n x then match f x with Some y => Some (y :: l) | None => None end else match on_input n f l with Some l' => Some (x :: l') | None => None end
  end.
Definition set_actions (hold : bool) (l : list data) (d : data) : data := set_argument (list_name hold) (DList l) d.

(* Which action: of which input, hold or not, the position *)
Definition item := (string * bool * nat)%type.
(* What the user does: ParserFrontendInput.js 547-573 addAction, 606-632 removeAction, 578-603 replaceAction; 363-369: with another value for hold, the action is
   removed and the new one is added; dragging actions within an input, or between two (209-305), where [here] and [there] are what the inputs show afterwards *)
Inductive edit :=
  | Add (n : string) (hold : bool) (d : definition)
  | Remove (n : string) (hold : bool) (i : nat)
  | Replace (n : string) (hold : bool) (i : nat) (d : definition)
  | Rehold (n : string) (hold : bool) (i : nat) (d : definition)
  | Sort (n : string) (here : list item)
  | Move (n k : string) (here there : list item).
Fixpoint remove_at {A} (i : nat) (l : list A) : list A := match l, i with [], _ => [] | _ :: l, O => l | x :: l, S i => x :: remove_at i l end.
Fixpoint replace_at {A} (i : nat) (y : A) (l : list A) : list A := match l, i with [], _ => [] | _ :: l, O => y :: l | x :: l, S i => x :: replace_at i y l end.
(* One list of one input is written again, with the change g *)
Definition change_list (hold : bool) (g : list data -> list data) (d : data) : option data :=
  match actions_of hold d with
  | None => None
  | Some l => match mapM rewritten l with Some l' => Some (set_actions hold (g l') d) | None => None end
  end.
(* 578-603: the action which is replaced is not written again *)
Definition replace_list (hold : bool) (i : nat) (y : data) (d : data) : option data :=
  match actions_of hold d with
  | None => None
  | Some l => match mapM rewritten (remove_at i l) with
              | Some l' => Some (set_actions hold (if (i <? List.length l)%nat then firstn i l' ++ y :: skipn i l' else l') d)
              | None => None
              end
  end.
(* 606-632: nor is the one which is removed *)
Definition remove_list (hold : bool) (i : nat) (d : data) : option data :=
  match actions_of hold d with
  | None => None
  | Some l => match mapM rewritten (remove_at i l) with Some l' => Some (set_actions hold l' d) | None => None end
  end.
(* The handler of an item, before the change; None: an exception *)
Definition item_data (l : list data) (x : item) : option data :=
  let '(n, hold, i) := x in
  match find (is_for n) l with Some d => match actions_of hold d with Some a => match nth_error a i with Some y => rewritten y | None => None end | None => None end | None => None end.
Definition is_hold (x : item) : bool := snd (fst x).
(* 313-331 updateInput *)
Definition arrange (old : list data) (g : list item) (d : data) : option data :=
  match mapM (item_data old) (filter (fun x => negb (is_hold x)) g), mapM (item_data old) (filter is_hold g) with
  | Some a, Some h => Some (set_actions true h (set_actions false a d))
  | _, _ => None
  end.
(* The inputs after it; None: an exception. ParserFrontend.js 128-139 for dragging: first the input the action is from *)
Definition change (l : list data) (e : edit) : option (list data) :=
  match e with
  | Add n hold d => on_input n (change_list hold (fun a => a ++ [prepared d])) l
  | Remove n hold i => on_input n (remove_list hold i) l
  | Replace n hold i d => on_input n (replace_list hold i (prepared d)) l
  | Rehold n hold i d => on_input n (fun x => match remove_list hold i x with Some y => change_list (negb hold) (fun a => a ++ [prepared d]) y | None => None end) l
  | Sort n here => on_input n (arrange l here) l
  | Move n k here there => match on_input n (arrange l here) l with Some l' => on_input k (arrange l there) l' | None => None end
  end.
