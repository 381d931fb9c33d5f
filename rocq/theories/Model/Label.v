(* ui/elements.py: DisplayLabel (46-227); clients/kemper/__init__.py: KemperRigNameCallback (68-134);
   controller/callbacks/parameter_display.py *)
From Verif.Lib Require Import Base.
From Verif.Model Require Import Midi.
From Coq Require Import String DecimalString.
Local Open Scope Z_scope.

(* colors.py:2-23: a colour is a tuple of three numbers. elements.py:23: a background may be several colours (rainbow). *)
Definition rgb := (Z * Z * Z)%type.
Inductive back := Solid (c : rgb) | Rainbow (cs : list rgb).
Definition WHITE : rgb := (255, 255, 255).
Definition BLACK : rgb := (0, 0, 0).

Definition rgb_eqb (a b : rgb) : bool :=
  let '(r, g, u) := a in let '(r', g', u') := b in (r =? r') && (g =? g') && (u =? u').
Fixpoint rgbs_eqb (a b : list rgb) : bool :=
  match a, b with
  | [], [] => true
  | x :: a', y :: b' => rgb_eqb x y && rgbs_eqb a' b'
  | _, _ => false
  end.
Definition back_eqb (a b : back) : bool :=
  match a, b with Solid x, Solid y => rgb_eqb x y | Rainbow x, Rainbow y => rgbs_eqb x y | _, _ => false end.

(* elements.py:51-66. The layout in use (text, text_color, back_color), the text colour of the configuration (__initial_text_color),
   override_text, [l_on]: init() has been called (then __label, __appl and, if there is a back_color, __background exist),
   [l_low]: low_memory_warning of the application (controller.py:38, 133). None for "" in override_text is not distinguished. *)
Record label := mkLabel { l_text : string; l_color : option rgb; l_back : option back; l_init : option rgb;
                          l_over : string; l_on : bool; l_low : bool }.
(* 27-34, 51-66: configuration options text, textColor, backColor *)
Definition new_label (text : string) (color : option rgb) (bg : option back) : label :=
  mkLabel text color bg color "" false false.

(* Calls of the display library: the label is created (text, colour, background rectangle), or one of its attributes is assigned. *)
Inductive dev := DNew (t : string) (c : option rgb) (b : option back) | DText (t : string) | DColor (c : rgb) | DBack (b : back).

(* 199-212 __wrap_text; [w] is wrap_text_to_pixels followed by join (external), or the identity without maxTextWidth *)
Definition wrapped (w : string -> string) (t : string) : string := if String.eqb t "" then ""%string else w t.

(* 216-227 __determine_text_color; the luminance in units of 1/10000 (exact numbers instead of floats). The weights cannot be
   multiplied with a tuple, so several colours raise. *)
Definition luminance (c : rgb) : Z := let '(r, g, b) := c in r * 2126 + g * 7151 + b * 721.
Definition determine_text_color (b : option back) : res rgb :=
  match b with
  | None => Ok WHITE
  | Some (Rainbow _) => Raise
  | Some (Solid c) => Ok (if luminance c <? 1400000 then WHITE else BLACK)
  end.

(* 162-174 text_color setter *)
Definition set_color (l : label) (c : option rgb) : res (label * list dev) :=
  match (match c with Some x => Ok x | None => determine_text_color (l_back l) end) with
  | Raise => Raise
  | Ok x =>
      if match l_color l with Some y => rgb_eqb y x | None => false end then Ok (l, [])
      else Ok (mkLabel (l_text l) (Some x) (l_back l) (l_init l) (l_over l) (l_on l) (l_low l), if l_on l then [DColor x] else [])
  end.

(* 139-156 back_color setter *)
Definition set_back (l : label) (c : option back) : res (label * list dev) :=
  match l_back l, c with
  | Some _, None => Raise
  | None, Some _ => Raise
  | None, None => Ok (l, [])
  | Some a, Some b =>
      if back_eqb a b then Ok (l, [])
      else match set_color (mkLabel (l_text l) (l_color l) (Some b) (l_init l) (l_over l) (l_on l) (l_low l)) (l_init l) with
           | Raise => Raise
           | Ok (l', e) => Ok (l', (if l_on l then [DBack b] else []) ++ e)
           end
  end.

Definition warning : string := "Low Memory!".
(* 184-197 text setter *)
Definition set_text (w : string -> string) (l : label) (t : string) : label * list dev :=
  let t1 := if l_on l && l_low l then warning else t in
  if String.eqb (l_text l) t1 then (l, [])
  else (mkLabel t1 (l_color l) (l_back l) (l_init l) (l_over l) (l_on l) (l_low l), if l_on l then [DText (wrapped w t1)] else []).

(* 68-72 update_label; [cb]: the text the callback of the label assigns (None: no callback, or it assigns none) *)
Definition update_label (w : string -> string) (l : label) (cb : option string) : label * list dev :=
  if negb (String.eqb (l_over l) "") then set_text w l (l_over l)
  else match cb with Some t => set_text w l t | None => (l, []) end.

(* 75-130 init. Called once (ui.py:58-61, UiController.py:50). The label does not exist yet while the text is set, but appl does. *)
Definition label_init (w : string -> string) (l : label) : res (label * list dev) :=
  if l_on l then Ok (l, [])
  else match set_color l (l_color l) with
       | Raise => Raise
       | Ok (l1, _) =>
           let t := if l_low l1 then warning else l_text l1 in
           Ok (mkLabel t (l_color l1) (l_back l1) (l_init l1) (l_over l1) true (l_low l1),
               [DNew (wrapped w t) (l_color l1) (l_back l1)])
       end.

(* A history of a label: its attributes are assigned, it is refreshed (by a notification of its callback or by the preview, preview.py),
   it is initialised, the application sets its warning. *)
Inductive lop := LText (t : string) | LColor (c : option rgb) | LBack (c : option back) | LOver (t : string) | LRefresh (cb : option string)
               | LInit | LLow (b : bool).
Definition lstep (w : string -> string) (l : label) (o : lop) : res (label * list dev) :=
  match o with
  | LText t => Ok (set_text w l t)
  | LColor c => set_color l c
  | LBack c => set_back l c
  | LOver t => Ok (mkLabel (l_text l) (l_color l) (l_back l) (l_init l) t (l_on l) (l_low l), [])
  | LRefresh cb => Ok (update_label w l cb)
  | LInit => label_init w l
  | LLow b => Ok (mkLabel (l_text l) (l_color l) (l_back l) (l_init l) (l_over l) (l_on l) b, [])
  end.
Fixpoint lrun (w : string -> string) (l : label) (h : list lop) : res (label * list dev) :=
  match h with
  | [] => Ok (l, [])
  | o :: h' => match lstep w l o with
               | Raise => Raise
               | Ok (l1, e1) => match lrun w l1 h' with Raise => Raise | Ok (l2, e2) => Ok (l2, e1 ++ e2) end
               end
  end.

(* --- KemperRigNameCallback --- *)

(* str() / repr() of an integer *)
Definition dec (z : Z) : string := NilZero.string_of_int (Z.to_int z).

(* kemper/__init__.py:71-74, 83: show_name; show_rig_id: False, 'rig', 'bank', True; 69: the default text *)
Inductive idmode := IdOff | IdRig | IdBank | IdBoth.
Record rconf := mkRconf { rc_name : bool; rc_id : idmode; rc_default : string }.

(* The label, the values of the two mappings, shared["preselectedBank"] of the application, __preselect_initialized *)
Record rlabel := mkRl { r_lab : label; r_name : option string; r_id : option Z; r_pre : option Z; r_seen : option Z }.

(* kemper/__init__.py:24 NUM_RIGS_PER_BANK *)
Definition num_rigs_per_bank : Z := 5.

(* 109-134 update_label: the text assigned to the label, if any *)
Definition rig_text (c : rconf) (s : rlabel) : option string :=
  match r_pre s with
  | Some b => Some ("Bank " ++ dec (b + 1))%string
  | None =>
      let name := match r_name s with Some n => if String.eqb n "" then rc_default c else n | None => rc_default c end in
      match rc_id c, r_id s with
      | IdOff, _ | _, None => if rc_name c then Some name else None
      | m, Some v =>
          let bank := Z.quot v num_rigs_per_bank in
          let rig := v mod num_rigs_per_bank in
          let id := match m with
                    | IdRig => dec (rig + 1)
                    | IdBank => dec (bank + 1)
                    | _ => (dec (bank + 1) ++ "-" ++ dec (rig + 1))%string
                    end in
          Some (if rc_name c then id ++ " " ++ name else id)%string
      end
  end.

(* elements.py:84-91: a notification refreshes the label; there is no listener before init() *)
Definition rnotify (w : string -> string) (c : rconf) (s : rlabel) : rlabel * list dev :=
  if l_on (r_lab s) then
    let '(l, e) := update_label w (r_lab s) (rig_text c s) in (mkRl l (r_name s) (r_id s) (r_pre s) (r_seen s), e)
  else (s, []).

(* 95-106 update, without the requests of Callback.update (Model/Client.v) *)
Definition rupdate (w : string -> string) (c : rconf) (s : rlabel) : rlabel * list dev :=
  match r_pre s with
  | Some b =>
      if match r_seen s with Some x => x =? b | None => false end then (s, [])
      else let s1 := mkRl (r_lab s) (r_name s) (r_id s) (r_pre s) (Some b) in
           if rc_name c then rnotify w c s1
           else match rc_id c with IdOff => (s1, []) | _ => rnotify w c s1 end
  | None => (mkRl (r_lab s) (r_name s) (r_id s) (r_pre s) None, [])
  end.

(* A history: the device answers with a name / rig ID, or a request for them is given up (callbacks/__init__.py:49-62: the value becomes
   None), shared["preselectedBank"] is set or deleted by an action (bank_select.py, bank_up_down.py, bank_select_encoder.py, rig_select.py),
   the callback is updated, the label is used directly. Mappings which are not registered (71-81) get no values. *)
Inductive rop := RName (v : option string) | RId (v : option Z) | RShared (b : option Z) | RUpdate | RLabel (o : lop).
Definition registered_id (c : rconf) : bool := match rc_id c with IdOff => false | _ => true end.
Definition rstep (w : string -> string) (c : rconf) (s : rlabel) (o : rop) : res (rlabel * list dev) :=
  match o with
  | RName v => Ok (if rc_name c then rnotify w c (mkRl (r_lab s) v (r_id s) (r_pre s) (r_seen s)) else (s, []))
  | RId v => Ok (if registered_id c then rnotify w c (mkRl (r_lab s) (r_name s) v (r_pre s) (r_seen s)) else (s, []))
  | RShared b => Ok (mkRl (r_lab s) (r_name s) (r_id s) b (r_seen s), [])
  | RUpdate => Ok (if l_on (r_lab s) then rupdate w c s else (s, []))       (* callbacks/__init__.py:38: updated after init() only *)
  | RLabel o =>
      match lstep w (r_lab s) (match o with LRefresh _ => LRefresh (rig_text c s) | _ => o end) with
      | Raise => Raise
      | Ok (l, e) => Ok (mkRl l (r_name s) (r_id s) (r_pre s) (r_seen s), e)
      end
  end.
Fixpoint rrun (w : string -> string) (c : rconf) (s : rlabel) (h : list rop) : res (rlabel * list dev) :=
  match h with
  | [] => Ok (s, [])
  | o :: h' => match rstep w c s o with
               | Raise => Raise
               | Ok (s1, e1) => match rrun w c s1 h' with Raise => Raise | Ok (s2, e2) => Ok (s2, e1 ++ e2) end
               end
  end.
Definition new_rl (l : label) : rlabel := mkRl l None None None None.

(* --- ParameterDisplayCallback --- *)

(* parameter_display.py:16-26 update_label; [conv]: convert_value applied to the value, None: no converter or it returns None *)
Definition param_text {A} (conv : option A -> option string) (str : A -> string) (v : option A) (default : string) : string :=
  match conv v with
  | Some t => t
  | None => match v with Some x => str x | None => default end
  end.
