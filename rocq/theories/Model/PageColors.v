(* The icons of actions in the web application: /repo/web/htdocs/js/ui/parser/ParserFrontendIcons.js. Left out: texts of the tooltips, colors of pages which have one (getPageColor). *)
From Coq Require Import String.
From Verif.Lib Require Import Base.
Local Open Scope list_scope.
Local Open Scope string_scope.

(* 6-7, 12: the colors given to pages by pager and page, and the next one *)
Record state := { colors : list (string * nat); next : nat }.
Definition init : state := {| colors := []; next := 0 |}.
(* Map.has, Map.get *)
Fixpoint look (k : string) (l : list (string * nat)) : option nat := match l with [] => None | (x, c) :: r => if String.eqb x k then Some c else look k r end.
(* 96-106: #getPageColorId *)
Definition ask (s : state) (pager page : string) : state * nat :=
  let k := append pager page in
  match look k (colors s) with
  | Some c => (s, c)
  | None => let n := S (next s) in ({| colors := (k, next s) :: colors s; next := if (5 <=? n)%nat then 0%nat else n |}, next s)
  end.
Definition run (h : list (string * string)) : state := fold_left (fun s q => fst (ask s (fst q) (snd q))) h init.
(* The color of the icon of a page, after the icons of others have been made *)
Definition color (h : list (string * string)) (pager page : string) : nat := snd (ask (run h) pager page).

(* An action: arguments display, use_leds, enable_callback (None: not given), page (empty: none), assignment, and the default of use_leds (None: there is no definition or parameter) *)
Record action := { a_display : option string; a_leds : option string; a_enable : option string; a_page : string; a_assign : bool; a_default : option string }.
Inductive icon := Leds | Display (name : string) | Page | Callback | Assigned.
(* JavaScript: empty texts are false *)
Definition given (o : option string) : option string := match o with Some "" => None | o => o end.
(* 111-125: #usesLeds *)
Definition uses_leds (a : action) : bool := match given (a_leds a) with Some v => String.eqb v "True" | None => match a_default a with Some v => String.eqb v "True" | None => false end end.
(* 19-73: get *)
Definition icons (a : action) : list icon :=
  ((if uses_leds a then [Leds] else []) ++
   (match given (a_display a) with Some d => if String.eqb d "None" then [] else [Display d] | None => [] end) ++
   (if negb (String.eqb (a_page a) "") then [Page] else match given (a_enable a) with Some e => if String.eqb e "None" then [] else [Callback] | None => [] end) ++
   (if a_assign a then [Assigned] else []))%list.
