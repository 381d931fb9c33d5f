(* The display editor of the web application: /repo/web/htdocs/js/ui/editors/display/{DisplayEditor,DisplayNode,DisplayNodeType,DisplayParameters,DisplayParameterList,DisplayNodePreview,
   DisplayNodePreviewDrag,DisplayGeneralParameterList}.js, types/*.js and js/ui/parser/ParserFrontend.js 42-95. The preview and the input fields show the data and are not modelled. *)
From Coq Require Import String Ascii QArith Qround.
From Coq Require Import DecimalString Decimal.
From Verif.Lib Require Import Base.
Open Scope string_scope.
Open Scope Z_scope.
Local Open Scope list_scope.

(* A dimension of DisplayBounds: a number, the text NaN, a variable (with its value, const() included) or other code, with what parseInt makes of it (None: NaN) *)
Inductive dim := Num (z : Z) | NaN | Var (x : string) (z : Z) | Code (e : string) (lead : option Z).
(* Bounds which define all dimensions. Simplification: if one is missing it counts as 0, and changing the bounds fails after the preceding ones have been written *)
Record bounds := { b_x : dim; b_y : dim; b_w : dim; b_h : dim }.
(* An element: the class, the variable it is assigned to, the bounds and the other arguments but "children". Simplification: the bounds are no object which other elements share *)
Record info := { i_type : string; i_assign : option string; i_bounds : option bounds; i_args : list (string * string) }.
(* The tree of elements. The number stands for the identity of the object and the id of its handler; None: there is no argument "children" *)
Inductive node := N (id : nat) (i : info) (children : option (list node)).
Definition n_id (n : node) : nat := match n with N id _ _ => id end.
Definition n_info (n : node) : info := match n with N _ i _ => i end.

(* The editor: the class of the splashes callback, the tree, the selected handler, the handlers with usages (DisplayNode.js 71-74, 394-396), and the next unused identity *)
Record state := { s_driver : string; s_tree : node; s_sel : option nat; s_used : list nat; s_next : nat }.

(* DisplayNode.js 167-191 flatten *)
Fixpoint flatten (n : node) : list node := n :: match n with N _ _ (Some l) => flat_map flatten l | N _ _ None => [] end.

(* Tools.js getArgument and DisplayNode.js 220-240 getModelBounds with Resolver.js: None is NaN *)
Definition value (d : dim) : option Z := match d with Num z => Some z | NaN => None | Var _ z => Some z | Code _ l => l end.
(* DisplayNode.js 251-256: Math.round *)
Definition round (q : Q) : Z := Qfloor (q + (1 # 2)).
Definition write (q : option Q) : dim := match q with Some q => Num (round q) | None => NaN end.
(* 260-261 *)
Definition at_least_1 (q : option Q) : option Q := match q with Some q => if Qle_bool 1 q then Some q else Some 1%Q | None => Some 1%Q end.
(* 245-265 setModelBounds *)
Definition set_bounds (x y w h : option Q) : bounds := {| b_x := write x; b_y := write y; b_w := write (at_least_1 w); b_h := write (at_least_1 h) |}.
Definition num (d : dim) : option Q := option_map inject_Z (value d).
Definition plus (a b : option Q) : option Q := match a, b with Some a, Some b => Some (a + b)%Q | _, _ => None end.

(* BidirectionalProtocolStateType.js 6-29 *)
Definition is8 (d : dim) : bool := match value d with Some z => z =? 8 | None => false end.
Definition dot (b : bounds) : bounds :=
  if is8 (b_w b) && is8 (b_h b) then b else set_bounds (plus (num (b_x b)) (plus (num (b_w b)) (Some (-8 # 1)%Q))) (num (b_y b)) (Some (8 # 1)%Q) (Some (8 # 1)%Q).
Definition is_dot (t : string) : bool := String.eqb t "BidirectionalProtocolState".
(* DisplayNodeType.js 11-22, and editable and resizable of the types *)
Definition editable (t : string) : bool := String.eqb t "DisplayLabel" || is_dot t || String.eqb t "TunerDisplay".
Definition resizable (t : string) : bool := String.eqb t "DisplayLabel" || String.eqb t "TunerDisplay".

Definition set_b (b : bounds) (i : info) : info := {| i_type := i_type i; i_assign := i_assign i; i_bounds := Some b; i_args := i_args i |}.
(* The setup of the type, without its exception: dots without bounds *)
Definition setup_type (i : info) : info := if is_dot (i_type i) then match i_bounds i with Some b => set_b (dot b) i | None => i end else i.
Fixpoint setup (n : node) : node := match n with N id i cs => N id (setup_type i) (option_map (map setup) cs) end.
Definition dots_ok (n : node) : bool := forallb (fun m => negb (is_dot (i_type (n_info m))) || match i_bounds (n_info m) with Some _ => true | None => false end) (flatten n).

Section Usages.
(* ParserChecks.js 134-183 with all = true: is the name the value of an argument of an action? The actions do not change while the editor is open *)
Variable uses : string -> bool.
(* DisplayNode.js 71-74: an empty name is none *)
Definition is_used (m : node) : bool := match i_assign (n_info m) with Some a => negb (String.eqb a "") && uses a | None => false end.
(* DisplayEditor.js 154-182 reset. If the setup fails the editor is left half set up: simplified to no change *)
Definition reset (s : state) : state :=
  if dots_ok (s_tree s) then
    let t := setup (s_tree s) in {| s_driver := s_driver s; s_tree := t; s_sel := None; s_used := map n_id (filter is_used (flatten t)); s_next := s_next s |}
  else s.
(* 65-80 init: a copy of the tree of the configuration. None: exception *)
Definition open (driver : string) (t : node) : option state :=
  if dots_ok t then Some (reset {| s_driver := driver; s_tree := t; s_sel := None; s_used := []; s_next := S (list_max (map n_id (flatten t))) |}) else None.

(* DisplayNode.js 196-205 searchById *)
Definition search (u : nat) (n : node) : option node := find (fun m => Nat.eqb (n_id m) u) (flatten n).
(* Changes of the data of one element *)
Fixpoint change (u : nat) (f : node -> node) (n : node) : node :=
  match n with N id i cs => if Nat.eqb id u then f n else N id i (option_map (map (change u f)) cs) end.
Definition change_info (u : nat) (f : info -> info) : node -> node := change u (fun n => match n with N id i cs => N id (f i) cs end).
(* Changes of the list which contains an element *)
Fixpoint siblings (u : nat) (f : list node -> list node) (n : node) : node :=
  match n with N id i cs => N id i (option_map (fun l => if existsb (fun m => Nat.eqb (n_id m) u) l then f l else map (siblings u f) l) cs) end.

(* 93-106 getChildIndex. The exception cannot occur: the element is in the list *)
Fixpoint child_index (u : nat) (l : list node) : nat := match l with [] => 0 | m :: l => if Nat.eqb (n_id m) u then 0 else S (child_index u l) end.
Fixpoint put (k : nat) (m : node) (l : list node) : list node := match l, k with [], _ => [] | _ :: l, 0%nat => m :: l | x :: l, S k => x :: put k m l end.
(* 330-345 moveDown *)
Definition move_down (u : nat) (l : list node) : list node :=
  let k := child_index u l in
  match k with
  | 0%nat => l
  | S j => match nth_error l k, nth_error l j with Some m, Some x => put j m (put k x l) | _, _ => l end
  end.
(* 350-365 moveUp *)
Definition move_up (u : nat) (l : list node) : list node :=
  let k := child_index u l in
  if (length l - 1 <=? k)%nat then l
  else match nth_error l k, nth_error l (S k) with Some m, Some x => put (S k) m (put k x l) | _, _ => l end.
(* 311-325 toFront: a stable sort with a comparison; a is before b if the result is not positive *)
Definition compare (u : nat) (a b : node) : Z := if Nat.eqb (n_id a) u then 1 else if Nat.eqb (n_id b) u then -1 else 0.
Fixpoint insert (u : nat) (m : node) (l : list node) : list node := match l with [] => [m] | x :: l => if compare u m x <=? 0 then m :: x :: l else x :: insert u m l end.
Fixpoint sort (u : nat) (l : list node) : list node := match l with [] => [] | m :: l => insert u m (sort u l) end.
(* 398-406 removeChild, without the exception *)
Definition drop (u : nat) (l : list node) : list node := filter (fun m => negb (Nat.eqb (n_id m) u)) l.

(* Elements which are no label: the default arguments, DisplayLabelType.js 75-95. The text stands for the layout *)
Definition default_layout : string := "{font: /fonts/H20.pcf, backColor: DEFAULT_LABEL_COLOR, stroke: 1}".
Definition default_args (t : string) : list (string * string) := if String.eqb t "DisplayLabel" then [("layout", default_layout)] else [].
(* DisplayNode.js 524-554 setType. Without bounds, it fails after the name has been changed *)
Definition set_type (t : string) (n : node) : node :=
  match n with N id i cs =>
    if String.eqb (i_type i) t then n
    else match i_bounds i with
         | None => N id {| i_type := t; i_assign := i_assign i; i_bounds := None; i_args := i_args i |} cs
         | Some b => N id (setup_type {| i_type := t; i_assign := i_assign i; i_bounds := Some b; i_args := default_args t |}) None
         end
  end.
(* DisplayNode.js 498-518 setParameter, for arguments other than bounds and children *)
Fixpoint put_arg (k v : string) (l : list (string * string)) : list (string * string) :=
  match l with [] => [(k, v)] | (k', v') :: l => if String.eqb k' k then (k', v) :: l else (k', v') :: put_arg k v l end.
Definition set_parameter (k v : string) (def : option string) (i : info) : info :=
  {| i_type := i_type i; i_assign := i_assign i; i_bounds := i_bounds i;
     i_args := if match def with Some d => String.eqb v d | None => false end then filter (fun x => negb (String.eqb (fst x) k)) (i_args i) else put_arg k v (i_args i) |}.

(* DisplayParameterList.js 158-170: the name *)
Definition allowed (c : ascii) : bool :=
  let n := Z.of_nat (nat_of_ascii c) in ((97 <=? n) && (n <=? 122)) || ((65 <=? n) && (n <=? 90)) || ((48 <=? n) && (n <=? 57)) || (n =? 95).
Fixpoint replaced_chars (s : string) : string := match s with EmptyString => EmptyString | String c s => String (if allowed c then c else "_"%char) (replaced_chars s) end.
Fixpoint no_underscores (s : string) : string := match s with String c s' => if Ascii.eqb c "_"%char then no_underscores s' else s | EmptyString => s end.
Definition clean (s : string) : string := no_underscores (replaced_chars s).
Definition set_assign (a : string) (i : info) : info := {| i_type := i_type i; i_assign := Some (clean a); i_bounds := i_bounds i; i_args := i_args i |}.

(* DisplayEditor.js 194-200: the name of a new element. The loop ends: one more try than there are elements is enough *)
Definition label (k : nat) : string := "DISPLAY_LABEL_" ++ NilEmpty.string_of_uint (Nat.to_uint k).
Definition has_name (a : string) (n : node) : bool := existsb (fun m => match i_assign (n_info m) with Some b => String.eqb b a | None => false end) (flatten n).
Fixpoint next_label (fuel k : nat) (n : node) : string := match fuel with 0%nat => label k | S fuel => if has_name (label k) n then next_label fuel (S k) n else label k end.
(* 202-243 *)
Definition new_element (id : nat) (a : string) : node :=
  N id {| i_type := "DisplayLabel"; i_assign := Some a; i_bounds := Some {| b_x := Num 0; b_y := Num 0; b_w := Num 100; b_h := Num 30 |}; i_args := [("layout", default_layout)] |} None.

(* What the user does. Values of numeric fields are numbers, an empty field counts as 0. *)
Inductive op :=
| Select (u : option nat)                                   (* DisplayParameters.js 39-53, 57-65, DisplayNodePreview.js 33-43 *)
| DragStart (u : nat) | DragMove (u : nat) (dx dy : Q)      (* DisplayNodePreviewDrag.js 27-60; dx and dy are divided by the scale *)
| ResizeStart (u : nat) | ResizeMove (u : nat) (w h : Q)    (* 73-110 *)
| SetX (q : Q) | SetY (q : Q) | SetW (q : Q) | SetH (q : Q) (* DisplayParameterList.js 183-262 *)
| MoveUp | MoveDown                                         (* 121-145 *)
| SetAssign (a : string) | SetType (t : string)             (* 152-178, 84-118 *)
| SetArg (k v : string) (def : option string)               (* the other parameters: types/*ParameterList.js *)
| Create | Remove                                           (* DisplayParameters.js 67-96 *)
| SetDriver (d : string)                                    (* DisplayGeneralParameterList.js, DisplayEditor.js 105-140, for a known callback *)
| Resize.                                                   (* DisplayPreview.js 48-60: the window changes its size *)

Definition with_tree (s : state) (t : node) : state := {| s_driver := s_driver s; s_tree := t; s_sel := s_sel s; s_used := s_used s; s_next := s_next s |}.
Definition with_sel (s : state) (u : option nat) : state := {| s_driver := s_driver s; s_tree := s_tree s; s_sel := u; s_used := s_used s; s_next := s_next s |}.
Definition type_of (s : state) (u : nat) : string := match search u (s_tree s) with Some m => i_type (n_info m) | None => "" end.
(* f applied to the current bounds of an element *)
Definition with_bounds (f : bounds -> bounds) (i : info) : info := match i_bounds i with Some b => set_b (f b) i | None => i end.
Definition selected (s : state) (f : nat -> state) : state := match s_sel s with Some u => f u | None => s end.
(* remove has no effect for the root (DisplayNode.js 387-391) *)
Definition is_root (s : state) (u : nat) : bool := Nat.eqb (n_id (s_tree s)) u.
Definition in_used (u : nat) (s : state) : bool := existsb (Nat.eqb u) (s_used s).
Definition moved (dx dy : Q) (b : bounds) : bounds := set_bounds (plus (num (b_x b)) (Some dx)) (plus (num (b_y b)) (Some dy)) (num (b_w b)) (num (b_h b)).
Definition resized (w h : Q) (b : bounds) : bounds := set_bounds (num (b_x b)) (num (b_y b)) (Some w) (Some h).
Definition with_x (q : Q) (b : bounds) : bounds := set_bounds (Some q) (num (b_y b)) (num (b_w b)) (num (b_h b)).
Definition with_y (q : Q) (b : bounds) : bounds := set_bounds (num (b_x b)) (Some q) (num (b_w b)) (num (b_h b)).
Definition with_w (q : Q) (b : bounds) : bounds := set_bounds (num (b_x b)) (num (b_y b)) (Some q) (num (b_h b)).
Definition with_h (q : Q) (b : bounds) : bounds := set_bounds (num (b_x b)) (num (b_y b)) (num (b_w b)) (Some q).

Definition step (s : state) (o : op) : state :=
  match o with
  | Select None => with_sel s None
  | Select (Some u) => if editable (type_of s u) then with_sel s (Some u) else s
  | DragStart u => if editable (type_of s u) then with_tree (with_sel s (Some u)) (siblings u (sort u) (s_tree s)) else s
  | ResizeStart u => if resizable (type_of s u) then with_tree (with_sel s (Some u)) (siblings u (sort u) (s_tree s)) else s
  | DragMove u dx dy => if editable (type_of s u) then with_tree s (change_info u (with_bounds (moved dx dy)) (s_tree s)) else s
  | ResizeMove u w h => if resizable (type_of s u) then with_tree s (change_info u (with_bounds (resized w h)) (s_tree s)) else s
  | SetX q => selected s (fun u => if editable (type_of s u) then with_tree s (change_info u (with_bounds (with_x q)) (s_tree s)) else s)
  | SetY q => selected s (fun u => if editable (type_of s u) then with_tree s (change_info u (with_bounds (with_y q)) (s_tree s)) else s)
  | SetW q => selected s (fun u => if resizable (type_of s u) then with_tree s (change_info u (with_bounds (with_w q)) (s_tree s)) else s)
  | SetH q => selected s (fun u => if resizable (type_of s u) then with_tree s (change_info u (with_bounds (with_h q)) (s_tree s)) else s)
  | MoveUp => selected s (fun u => with_tree s (siblings u (move_up u) (s_tree s)))
  | MoveDown => selected s (fun u => with_tree s (siblings u (move_down u) (s_tree s)))
  | SetAssign a => selected s (fun u => if in_used u s then s else with_tree s (change_info u (set_assign a) (s_tree s)))
  | SetType t => selected s (fun u => with_tree s (change u (set_type t) (s_tree s)))
  | SetArg k v def => selected s (fun u => with_tree s (change_info u (set_parameter k v def) (s_tree s)))
  | Create =>
      (* without an argument "children" of the root: an exception *)
      match s_tree s with
      | N id i (Some l) =>
          let a := next_label (length (flatten (s_tree s))) 1 (s_tree s) in
          let s' := reset {| s_driver := s_driver s; s_tree := N id i (Some (l ++ [new_element (s_next s) a])); s_sel := s_sel s; s_used := s_used s; s_next := S (s_next s) |} in
          with_sel s' (Some (s_next s))
      | N _ _ None => s
      end
  | Remove => selected s (fun u => if is_root s u then reset s else if in_used u s then s else reset (with_tree s (siblings u (drop u) (s_tree s))))
  | SetDriver d => reset {| s_driver := d; s_tree := s_tree s; s_sel := s_sel s; s_used := s_used s; s_next := s_next s |}
  | Resize => reset s
  end.
Definition steps (s : state) (ops : list op) : state := fold_left step ops s.
End Usages.

(* DisplayNode.js 402-445: the errors of an element *)
Definition has_error (t m : node) : bool :=
  match i_assign (n_info m) with
  | None => false
  | Some a => String.eqb a "Splashes" ||
              (negb (String.eqb a "") && existsb (fun x => negb (Nat.eqb (n_id x) (n_id m)) && match i_assign (n_info x) with Some b => String.eqb b a | None => false end) (flatten t))
  end.
(* 420-429 getMessagesDeep *)
Definition children (n : node) : list node := match n with N _ _ (Some l) => l | N _ _ None => [] end.
Definition errors (t : node) : bool := existsb (has_error t) (t :: children t).
(* ParserFrontend.js 43-52 and DisplayEditor.js 252-263: Apply. None: refused *)
Definition apply (s : state) : option (string * node) := if errors (s_tree s) then None else Some (s_driver s, s_tree s).

(* DisplayEditor.js 293-295 isDirty: equality of the data as text *)
Definition info_eq_dec (i j : info) : {i = j} + {i <> j}.
Proof. repeat decide equality. Defined.
Fixpoint same (n m : node) {struct n} : bool :=
  match n, m with
  | N _ i cs, N _ j ds =>
      (if info_eq_dec i j then true else false) &&
      match cs, ds with
      | None, None => true
      | Some l, Some l' => (fix go l l' := match l, l' with [], [] => true | x :: l, y :: l' => same x y && go l l' | _, _ => false end) l l'
      | _, _ => false
      end
  end.
(* ParserFrontend.js 54-56: is the user asked before the editor is closed without applying? t: the tree of the configuration *)
Definition asks (t : node) (s : state) : bool := negb (same t (s_tree s)).
