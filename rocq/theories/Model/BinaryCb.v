(* controller/callbacks/__init__.py:66-336 BinaryParameterCallback, callbacks/effect_enable.py:6-63 EffectEnableCallback *)
From Verif.Lib Require Import Base.
Open Scope Z_scope.

(* Comparison modes: callbacks/__init__.py:69-77. An invalid mode raises (282) and is not represented. *)
Inductive cmp_mode := EQUAL | GREATER | GREATER_EQUAL | LESS | LESS_EQUAL | NO_STATE_CHANGE.

(* Argument of client.set: one value or one per set message. *)
Inductive setval := SOne (z : Z) | SMany (l : list Z).

(* value_disable (callbacks/__init__.py:107, 145): None stands for "auto" *)
Inductive offval := OOne (x : option Z) | OMany (l : list (option Z)).

(* Constructor arguments (callbacks/__init__.py:79-160). [bc_live] is "mapping.response or use_internal_state" (303).
   Parameter values are numbers: string values, for which >= raises, are not represented. Colours are numbers
   (only compared for equality). LED brightness and dim factors are two settings, "on" and "off". *)
Record bcfg := mkBcfg {
  bc_mode : cmp_mode;
  bc_ref : Z;                     (* 146 *)
  bc_enable : setval;             (* 144 *)
  bc_disable : offval;            (* 145, initial *)
  bc_has_dis_map : bool;          (* 142 mapping_disable *)
  bc_live : bool;
  bc_text : bool;                 (* 147 a text has been given *)
  bc_text_dis : bool              (* 148 *)
}.

Record bstate := mkB {
  b_on : bool;                    (* action.state *)
  b_cur : option (option Z);      (* __current_value; None: the impossible value (228) *)
  b_disp : option bool;           (* _current_display_state; None: -1 *)
  b_col : option Z;               (* _current_color; None: -1 *)
  b_off : offval                  (* _value_disable *)
}.

(* Observable effects *)
Inductive label_text := TextUnchanged | TextNormal | TextDisabled.
Inductive bevent :=
| ESet (disable_mapping : bool) (v : setval)       (* client.set on mapping / mapping_disable *)
| EAsk                                             (* client.request for the mappings of the callback (222) *)
| EShow (color : Z) (lit : bool) (text : label_text). (* switch colour and brightness, label colour and text *)

(* callbacks/__init__.py:252-284: the state computed from a value *)
Definition evaluate (c : bcfg) (on : bool) (v : option Z) : bool :=
  match v with
  | None => false
  | Some v =>
      match bc_mode c with
      | EQUAL => v =? bc_ref c
      | GREATER_EQUAL => bc_ref c <=? v
      | GREATER => bc_ref c <? v
      | LESS_EQUAL => v <=? bc_ref c
      | LESS => v <? bc_ref c
      | NO_STATE_CHANGE => on
      end
  end.

(* callbacks/__init__.py:163-167 and 290-295: positions that were "auto" at construction get the value *)
Fixpoint remember_list (v : Z) (init now : list (option Z)) : list (option Z) :=
  match init, now with
  | i :: init', n :: now' => (match i with None => Some v | Some _ => n end) :: remember_list v init' now'
  | _, _ => now
  end.
Definition remember (init now : offval) (v : Z) : offval :=
  match init, now with
  | OOne None, OOne _ => OOne (Some v)
  | OMany i, OMany n => OMany (remember_list v i n)
  | _, _ => now
  end.

(* callbacks/__init__.py:252-295 evaluate_value *)
Definition evaluate_value (c : bcfg) (s : bstate) (v : option Z) : bstate :=
  let on := evaluate c (b_on s) v in
  mkB on (b_cur s) (b_disp s) (b_col s)
      (match on, v with
       | false, Some z => remember (bc_disable c) (b_off s) z
       | _, _ => b_off s
       end).

(* callbacks/__init__.py:299-336 *)
Definition show (c : bcfg) (on : bool) (color : Z) : bevent :=
  EShow color (on && bc_live c)
    (if negb (bc_text c) then TextUnchanged
     else if on || negb (bc_live c) then TextNormal
     else if bc_text_dis c then TextDisabled else TextNormal).

Definition opt_eqb (a b : option Z) : bool :=
  match a, b with Some x, Some y => x =? y | None, None => true | _, _ => false end.

(* callbacks/__init__.py:232-248 update_displays; [v] is mapping.value, [color] what the colour callback gives *)
Definition update_displays (c : bcfg) (s : bstate) (v : option Z) (color : Z) : bstate * list bevent :=
  let s1 := match b_cur s with
            | Some cur => if opt_eqb v cur then s else evaluate_value c (mkB (b_on s) (Some v) (b_disp s) (b_col s) (b_off s)) v
            | None => evaluate_value c (mkB (b_on s) (Some v) (b_disp s) (b_col s) (b_off s)) v
            end in
  if negb (opt_eqb (Some color) (b_col s1)) ||
     negb (match b_disp s1 with Some d => Bool.eqb d (b_on s1) | None => false end)
  then (mkB (b_on s1) (b_cur s1) (Some (b_on s1)) (Some color) (b_off s1), [show c (b_on s1) color])
  else (s1, []).

Fixpoint all_some (l : list (option Z)) : option (list Z) :=
  match l with
  | [] => Some []
  | None :: _ => None
  | Some x :: l' => option_map (cons x) (all_some l')
  end.

(* callbacks/__init__.py:197-222 state_changed_by_user, the action's state being already set *)
Definition state_changed (c : bcfg) (s : bstate) : list bevent :=
  let dm := negb (b_on s) && bc_has_dis_map c in
  (match b_off s with
   | OOne x =>
       if b_on s then [ESet dm (bc_enable c)]
       else match x with Some z => [ESet dm (SOne z)] | None => [] end
   | OMany l =>
       match all_some l with
       | None => []
       | Some zs => [ESet dm (if b_on s then bc_enable c else SMany zs)]
       end
   end) ++ [EAsk].

(* What can happen to a callback *)
Inductive bop :=
| Update (v : option Z) (color : Z)    (* update_displays *)
| User (on : bool)                     (* the user switches the action: state set, then state_changed_by_user *)
| Force (on : bool)                    (* the action changes its state without command (e.g. reset, push.py) *)
| Renew.                               (* reset() (226-229) *)

Definition bstep (c : bcfg) (s : bstate) (o : bop) : bstate * list bevent :=
  match o with
  | Update v color => update_displays c s v color
  | User on => let s' := mkB on (b_cur s) (b_disp s) (b_col s) (b_off s) in (s', state_changed c s')
  | Force on => (mkB on (b_cur s) (b_disp s) (b_col s) (b_off s), [])
  | Renew => (mkB (b_on s) None None None (b_off s), [])
  end.

(* callbacks/__init__.py:158-167 *)
Definition binit (c : bcfg) : bstate := mkB false None None None (bc_disable c).

(* ---- Effect slots: callbacks/effect_enable.py ---- *)

(* The slot's type value determines the category; [category] and [color_of], [text_of] are the abstract methods (54-63) *)
Record ecfg := mkEcfg { e_base : bcfg; e_category : Z -> Z; e_color_of : Z -> option Z -> Z }.
Record estate := mkE { e_b : bstate; e_type : option Z (* __current_kpp_type *) }.
Inductive eevent := EB (e : bevent) | EText (category : Z) (ty : option Z).

Definition CATEGORY_NONE : Z := 0.   (* effect_enable.py:9 *)

(* effect_enable.py:35-51; [ty] is mapping_fxtype.value *)
Definition e_update (c : ecfg) (s : estate) (v ty : option Z) : estate * list eevent :=
  let cat := match ty with Some t => e_category c t | None => CATEGORY_NONE end in
  let b := e_b s in
  let b1 := if cat =? CATEGORY_NONE then mkB false (b_cur b) (b_disp b) (b_col b) (b_off b) else b in
  let color := e_color_of c cat ty in
  let txt := if opt_eqb (e_type s) ty then [] else [EText cat ty] in
  let '(b2, ev) := update_displays (e_base c) b1 v color in
  (mkE b2 ty, txt ++ map EB ev).

(* What can happen to the callback of an effect slot; the rest is inherited. *)
Inductive eop :=
| EReport (v ty : option Z)     (* update_displays, the two mappings having these values *)
| EUser (on : bool)
| EForce (on : bool)
| ERenew.                       (* reset: effect_enable.py:30-33 *)
Definition e_inherit (c : ecfg) (s : estate) (ty : option Z) (o : bop) : estate * list eevent :=
  let '(b, ev) := bstep (e_base c) (e_b s) o in (mkE b ty, map EB ev).
Definition e_step (c : ecfg) (s : estate) (o : eop) : estate * list eevent :=
  match o with
  | EReport v ty => e_update c s v ty
  | EUser on => e_inherit c s (e_type s) (User on)
  | EForce on => e_inherit c s (e_type s) (Force on)
  | ERenew => e_inherit c s None Renew
  end.
(* effect_enable.py:15-28 *)
Definition e_init (c : ecfg) : estate := mkE (binit (e_base c)) None.
