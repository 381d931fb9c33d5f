(* The editor's check for display labels which are used more than once: /repo/web/htdocs/js/model/parser/ParserChecks.js, with pager, page and argument of
   ParserInputAction.js and actions of ParserInput.js. *)
From Coq Require Import String Ascii.
From Verif.Lib Require Import Base.
Open Scope string_scope.
Local Open Scope list_scope.

(* An action as the check sees it: its id (ParserInputAction.js 17, 49-51) and its arguments, with their names (None: positional) and the code of their values (77-101) *)
Record action := { a_id : nat; a_args : list (option string * string) }.
(* The inputs of the hardware which are in inputs.py, each with its actions and hold actions (ParserInput.js 83-107; an input which is not there has none: ParserChecks.js 144) *)
Definition config := list (list action * list action).

(* ParserInputAction.js 106-116 *)
Definition argument (a : action) (name : string) : option string :=
  match find (fun x => match fst x with Some n => String.eqb n name | None => false end) (a_args a) with Some x => Some (snd x) | None => None end.
(* s.split("."), 64 *)
Fixpoint split_dot (s : string) : string * list string :=
  match s with
  | EmptyString => ("", [])
  | String c s => let (x, l) := split_dot s in if Ascii.eqb c "." then ("", x :: l) else (String c x, l)
  end.
(* A value which counts as given: 58-62 *)
Definition given (v : option string) : option string := match v with Some x => if String.eqb x "" || String.eqb x "None" then None else Some x | None => None end.
(* 56-68 pager, 73-76 page: an empty string counts as no pager in the second one *)
Definition pager (a : action) : option string :=
  match given (argument a "enable_callback") with
  | None => None
  | Some ec => match given (argument a "id") with
               | None => None
               | Some _ => match split_dot ec with (x, [_]) => Some x | _ => None end
               end
  end.
Definition page (a : action) : option string := match pager a with Some x => if String.eqb x "" then None else argument a "id" | None => None end.

(* s.includes(t) *)
Fixpoint includes (t s : string) : bool := String.prefix t s || match s with String _ s => includes t s | EmptyString => false end.
(* ParserChecks.js 151-162: for each argument with the display as its value. None: exception (a positional argument has no name to search in) *)
Fixpoint usages_args (d : string) (a : action) (args : list (option string * string)) : option (list action) :=
  match args with
  | [] => Some []
  | (n, v) :: args =>
      match (if String.eqb v d then match n with None => None | Some n => Some (if includes "preview" n || includes "change" n then [] else [a]) end else Some []), usages_args d a args with
      | Some x, Some y => Some (x ++ y)
      | _, _ => None
      end
  end.
Fixpoint usages_actions (d : string) (l : list action) : option (list action) :=
  match l with
  | [] => Some []
  | a :: l => match usages_args d a (a_args a), usages_actions d l with Some x, Some y => Some (x ++ y) | _, _ => None end
  end.
(* 134-183 getDisplayUsages, all = false *)
Fixpoint usages (d : string) (c : config) : option (list action) :=
  match c with
  | [] => Some []
  | (acts, hold) :: c => match usages_actions d acts, usages_actions d hold, usages d c with Some x, Some y, Some z => Some (x ++ y ++ z) | _, _, _ => None end
  end.

Definition oeqb (a b : option string) : bool := match a, b with Some x, Some y => String.eqb x y | None, None => true | _, _ => false end.
(* 67-101: the tree of pagers and pages, in the order of their first occurrences *)
Definition pagers_tree := list (option string * list (option string)).
Fixpoint add_page (p g : option string) (t : pagers_tree) : pagers_tree :=
  match t with
  | [] => [(p, [g])]
  | (x, pages) :: t => if oeqb x p then (x, if existsb (fun y => oeqb y g) pages then pages else pages ++ [g]) :: t else (x, pages) :: add_page p g t
  end.
Definition tree (us : list action) : pagers_tree := fold_left (fun t u => add_page (pager u) (page u) t) us [].

(* A message: all of them are warnings about the parameter display, told apart by the display; and the actions *)
Definition message := (string * list action)%type.
(* [...new Set(l)] *)
Fixpoint distinct (l : list action) : list action := match l with [] => [] | a :: l => a :: filter (fun b => negb (Nat.eqb (a_id a) (a_id b))) (distinct l) end.
(* 103-115 *)
Fixpoint add_message (m : message) (ms : list message) : list message :=
  match ms with
  | [] => [m]
  | x :: ms => if String.eqb (fst x) (fst m) then (fst x, distinct (snd x ++ snd m)) :: ms else x :: add_message m ms
  end.
(* 119 *)
Definition filtered (p g : option string) (us : list action) : list action := filter (fun u => negb (oeqb (pager u) p) || (oeqb (page u) g && oeqb (pager u) p)) us.
(* 117-131 *)
Definition check_page (d : string) (us : list action) (p : option string) (ms : list message) (g : option string) : list message :=
  let f := filtered p g us in if (1 <? length f)%nat then add_message (d, f) ms else ms.
Definition check_display (d : string) (us : list action) (ms : list message) : list message :=
  fold_left (fun ms t => fold_left (check_page d us (fst t)) (snd t) ms) (tree us) ms.
(* 62-132 for the displays of display.py *)
Fixpoint check (displays : list string) (c : config) (ms : list message) : option (list message) :=
  match displays with
  | [] => Some ms
  | d :: ds => match usages d c with None => None | Some us => check ds c (check_display d us ms) end
  end.
(* 43-56 messagesForAction *)
Definition messages_for (ms : list message) (id : nat) : list message := flat_map (fun m => map (fun _ => m) (filter (fun a => Nat.eqb (a_id a) id) (snd m))) ms.
