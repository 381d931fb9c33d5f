(* web/htdocs/python/parser: reading the configuration into the editor (misc/CodeExtractor.py, misc/AssignmentExtractor.py) and
   writing it back (misc/CodeGenerator.py, misc/ReplaceAssignmentTransformer.py, misc/AddAssignmentTransformer.py,
   PySwitchParser.py 58-147).
   Source code is represented by the syntax tree libcst builds for it; whitespace and comments are left out, and printing and
   parsing code (code_for_node, parse_expression) is taken to be lossless. *)
From Verif.Lib Require Import Base.
From Coq Require Import String.
Local Open Scope list_scope.

(* Keys of a dictionary display: a literal in double quotes without further double quotes, or another token without double
   quotes (a number, a variable, a literal in single quotes). Other keys make the extractor raise or are not covered. *)
Inductive key := KText (s : string) | KToken (s : string).
(* Expressions as the extractor distinguishes them (CodeExtractor.py:43-57). Arguments and list elements carry a flag for the
   star of f( *x ) and [ *x ]; arguments an optional keyword. [EOther]: every other expression, with its code. *)
Inductive expr :=
| EName (x : string)
| ECall (f : expr) (args : list (bool * option string * expr))
| EDict (items : list (key * expr))
| EList (items : list (bool * expr))
| EOther (code : string).

(* Statements. A line holds one or more small statements; everything compound (def, class, if ...) is a block.
   Targets of assignments other than names (a.b, a[i]) never equal a name; tuple targets are not covered. *)
Inductive target := TName (x : string) | TOther (code : string).
Inductive small := MAssign (ts : list target) (e : expr) | MOther (code : string).
Inductive stmt := SLine (first : small) (rest : list small) | SBlock (code : string).
Definition module := list stmt.

(* What the editor works on (JSON). Code strings are represented by the expression they stand for. [assign]: the variable the
   value is bound to (None: missing or null). The "client" entries are left out, they are not read when generating. *)
Inductive data :=
| DCode (e : expr)
| DList (l : list data)
| DCall (f : expr) (args : list (option string * data)) (assign : option string)
| DDict (items : list (string * data)) (assign : option string)
| DVal (v : data) (assign : option string).

Definition is_target (x : string) (t : target) : bool := match t with TName y => String.eqb y x | TOther _ => false end.

(* AssignmentExtractor.py:10-29 with CodeExtractor.py:140-147, also CodeExtractor.py:21-40: the value of the first assignment
   to x; of a line only the first small statement counts *)
Fixpoint lookup (m : module) (x : string) : option expr :=
  match m with
  | [] => None
  | SLine (MAssign ts e) _ :: m' => if existsb (is_target x) ts then Some e else lookup m' x
  | _ :: m' => lookup m' x
  end.

Fixpoint mapM {A B} (f : A -> option B) (l : list A) : option (list B) :=
  match l with
  | [] => Some []
  | x :: l' => match f x with
               | None => None
               | Some y => match mapM f l' with None => None | Some ys => Some (y :: ys) end
               end
  end.

(* CodeExtractor.py:100: double quotes are stripped from the text of the key *)
Definition key_text (k : key) : string := match k with KText s => s | KToken s => s end.

(* CodeExtractor.py:65-88: the names of the arguments; positional ones take the next of the known names, if any *)
Fixpoint arg_names (names : list string) (args : list (bool * option string * expr)) : list (option string) :=
  match args with
  | [] => []
  | (_, Some k, _) :: r => Some k :: arg_names names r
  | (_, None, _) :: r => hd_error names :: arg_names (tl names) r
  end.

Definition with_assign (x : string) (d : data) : data :=
  match d with
  | DCall f a _ => DCall f a (Some x)
  | DDict i _ => DDict i (Some x)
  | DVal v _ => DVal v (Some x)
  | _ => DVal d (Some x)
  end.

(* CodeExtractor.py:43-137 _parse_node, _parse_call, _parse_dict, _parse_list, _parse_assigned. [known]: get_arg_names, by the
   called function. [n] bounds the depth of the recursion, None: the recursion is deeper than that. *)
Fixpoint parse (known : expr -> list string) (n : nat) (m : module) (e : expr) : option data :=
  match n with
  | O => None
  | S n' =>
      match e with
      | EName x =>
          match lookup m x with
          | None => Some (DCode (EName x))
          | Some e' => match parse known n' m e' with None => None | Some d => Some (with_assign x d) end
          end
      | ECall f args =>
          match mapM (fun a => parse known n' m (snd a)) args with
          | None => None
          | Some ds => Some (DCall f (combine (arg_names (known f) args) ds) None)
          end
      | EDict items =>
          match mapM (fun a => parse known n' m (snd a)) items with
          | None => None
          | Some ds => Some (DDict (combine (map (fun a => key_text (fst a)) items) ds) None)
          end
      | EList items =>
          match mapM (fun a => parse known n' m (snd a)) items with None => None | Some ds => Some (DList ds) end
      | EOther c => Some (DCode (EOther c))
      end
  end.

(* CodeExtractor.py:33-36: only dictionaries get the name *)
Definition root_assign (x : string) (d : data) : data :=
  match d with DList _ | DCode _ => d | _ => with_assign x d end.
(* CodeExtractor.py:20-40 get; inner None: there is no such assignment *)
Definition load (known : expr -> list string) (n : nat) (m : module) (root : string) : option (option data) :=
  match lookup m root with
  | None => Some None
  | Some e => match parse known n m e with None => None | Some d => Some (Some (root_assign root d)) end
  end.

(* ReplaceAssignmentTransformer.py:10-21: every assignment to x on module level *)
Definition replace_small (x : string) (e : expr) (s : small) : small :=
  match s with MAssign ts v => if existsb (is_target x) ts then MAssign ts e else s | MOther _ => s end.
Definition replace_stmt (x : string) (e : expr) (s : stmt) : stmt :=
  match s with SLine a r => SLine (replace_small x e a) (map (replace_small x e) r) | SBlock _ => s end.
Definition assigns_small (x : string) (s : small) : bool :=
  match s with MAssign ts _ => existsb (is_target x) ts | MOther _ => false end.
Definition assigns_stmt (x : string) (s : stmt) : bool :=
  match s with SLine a r => existsb (assigns_small x) (a :: r) | SBlock _ => false end.

(* AddAssignmentTransformer.py:50-76 _generate_statement *)
Definition line (x : string) (e : expr) : stmt := SLine (MAssign [TName x] e) [].
(* AddAssignmentTransformer.py:30-38: before every line whose first statement assigns [before] *)
Definition add_before (before x : string) (e : expr) (m : module) : module :=
  flat_map (fun s => match s with
                     | SLine a _ => if assigns_small before a then [line x e; s] else [s]
                     | SBlock _ => [s]
                     end) m.
(* AddAssignmentTransformer.py:15-24, 39-46: after the last line, found by counting lines up to the number of all statements *)
Definition is_line (s : stmt) : bool := match s with SLine _ _ => true | SBlock _ => false end.
Definition add_last (x : string) (e : expr) (m : module) : module := if forallb is_line m then m ++ [line x e] else m.

(* PySwitchParser.py:134-147 set_assignment *)
Definition set_assignment (before : option string) (x : string) (e : expr) (m : module) : module :=
  if existsb (assigns_stmt x) m then map (replace_stmt x e) m
  else match before with Some b => add_before b x e m | None => add_last x e m end.

(* CodeGenerator.py:112-129 _resolve_assign, with a parser *)
Definition resolve (root : string) (a : option string) (e : expr) (m : module) : expr * module :=
  match a with Some x => (EName x, set_assignment (Some root) x e m) | None => (e, m) end.

(* the truth value of a JSON value (CodeGenerator.py:32); code is never empty *)
Definition truthy (d : data) : bool := match d with DList [] => false | _ => true end.

Definition gen_list {A} (gen : A -> module -> option (expr * module)) : list A -> module -> option (list expr * module) :=
  fix go l m := match l with
                | [] => Some ([], m)
                | x :: l' => match gen x m with
                             | None => None
                             | Some (e, m1) => match go l' m1 with None => None | Some (es, m2) => Some (e :: es, m2) end
                             end
                end.

(* CodeGenerator.py:19-143 _generate and its parts, with a parser; None: an exception. [root]: insert_before_assign *)
Fixpoint gen (root : string) (d : data) (m : module) : option (expr * module) :=
  match d with
  | DCode e => Some (e, m)
  | DList l => match gen_list (gen root) l m with None => None | Some (es, m1) => Some (EList (map (pair false) es), m1) end
  | DCall f args a =>
      match gen_list (fun x => gen root (snd x)) args m with
      | None => None
      | Some (es, m1) => Some (resolve root a (ECall f (combine (map (fun x => (false, fst x)) args) es)) m1)
      end
  | DDict items a =>
      match gen_list (fun x => gen root (snd x)) items m with
      | None => None
      | Some (es, m1) => Some (resolve root a (EDict (combine (map (fun x => KText (fst x)) items) es)) m1)
      end
  | DVal v None => gen root v m
  | DVal v (Some x) =>
      if truthy v then match gen root v m with None => None | Some (e, m1) => Some (resolve root (Some x) e m1) end else None
  end.

(* PySwitchParser.py:72-74, 118-120 *)
Definition no_assign (d : data) : data :=
  match d with DCall f a _ => DCall f a None | DDict i _ => DDict i None | DVal v _ => DVal v None | _ => d end.
(* PySwitchParser.py:67-83 set_inputs (root "Inputs"), 113-129 set_splashes (root "Splashes"); None: an exception *)
Definition save (root : string) (d : data) (m : module) : option module :=
  match gen root (no_assign d) m with
  | None => None
  | Some (e, m1) => Some (set_assignment None root e m1)
  end.

(* InputsExtractor.py: no argument names. SplashesExtractor.py:11-13 *)
Definition inputs_known (f : expr) : list string := [].
Definition splashes_known (f : expr) : list string :=
  match f with EName x => if String.eqb x "DisplayBounds" then ["x"; "y"; "w"; "h"]%string else [] | _ => [] end.
