(* C31, C32: specification over the history (most recent first) of a callback *)
From Verif.Lib Require Import Base.
From Verif.Model Require Import BinaryCb.
Open Scope Z_scope.

(* Comparison of a reported number with the reference value. *)
Definition compares (m : cmp_mode) (v ref : Z) : Prop :=
  match m with
  | EQUAL => v = ref | GREATER => v > ref | GREATER_EQUAL => v >= ref | LESS => v < ref | LESS_EQUAL => v <= ref
  | NO_STATE_CHANGE => False
  end.

(* The value shown last, if there has been a display update since the last reset. *)
Fixpoint last_shown (rh : list bop) : option (option Z) :=
  match rh with
  | [] => None
  | Update v _ :: _ => Some v
  | Renew :: _ => None
  | _ :: rh' => last_shown rh'
  end.

Definition same_value (a : option (option Z)) (v : option Z) : Prop := a = Some v.

(* on rh b: after the history the action is in state b. *)
Inductive on_after (m : cmp_mode) (ref : Z) : list bop -> bool -> Prop :=
| oa_start : on_after m ref [] false
| oa_user b rh : on_after m ref (User b :: rh) b
| oa_force b rh : on_after m ref (Force b :: rh) b
| oa_renew b rh : on_after m ref rh b -> on_after m ref (Renew :: rh) b
| oa_same b rh v col : same_value (last_shown rh) v -> on_after m ref rh b -> on_after m ref (Update v col :: rh) b
| oa_none rh col : ~ same_value (last_shown rh) None -> on_after m ref (Update None col :: rh) false
| oa_true rh v col : ~ same_value (last_shown rh) (Some v) -> m <> NO_STATE_CHANGE ->
    compares m v ref -> on_after m ref (Update (Some v) col :: rh) true
| oa_false rh v col : ~ same_value (last_shown rh) (Some v) -> m <> NO_STATE_CHANGE ->
    ~ compares m v ref -> on_after m ref (Update (Some v) col :: rh) false
| oa_keep b rh v col : ~ same_value (last_shown rh) (Some v) -> m = NO_STATE_CHANGE ->
    on_after m ref rh b -> on_after m ref (Update (Some v) col :: rh) b.

(* last_off rh x: the most recent reported number that means "off". *)
Inductive last_off (m : cmp_mode) (ref : Z) : list bop -> option Z -> Prop :=
| lo_start : last_off m ref [] None
| lo_off v col rh : ~ compares m v ref -> last_off m ref (Update (Some v) col :: rh) (Some v)
| lo_on v col rh x : compares m v ref -> last_off m ref rh x -> last_off m ref (Update (Some v) col :: rh) x
| lo_unknown col rh x : last_off m ref rh x -> last_off m ref (Update None col :: rh) x
| lo_other o rh x : (forall v col, o <> Update v col) -> last_off m ref rh x -> last_off m ref (o :: rh) x.

Definition is_show (e : bevent) : bool := match e with EShow _ _ _ => true | _ => false end.
Definition is_set (e : bevent) : bool := match e with ESet _ _ => true | _ => false end.

(* Automatic entries take the remembered value, the others are sent as configured. *)
Definition fill (remembered : option Z) (x : option Z) : option Z := match x with Some z => Some z | None => remembered end.

(* Effect slots: the category of a type, nothing if the type is not known. *)
Definition slot_category (c : ecfg) (ty : option Z) : Z := match ty with Some t => e_category c t | None => CATEGORY_NONE end.
(* An effect slot is an ordinary switch that is forced off by reports of an empty slot, and has the colour of the reported type. *)
Definition base_op (c : ecfg) (o : eop) : list bop :=
  match o with
  | EReport v ty => (if slot_category c ty =? CATEGORY_NONE then [Force false] else []) ++ [Update v (e_color_of c (slot_category c ty) ty)]
  | EUser on => [User on]
  | EForce on => [Force on]
  | ERenew => [Renew]
  end.
Definition base_ops (c : ecfg) (ops : list eop) : list bop := flat_map (base_op c) ops.
Definition base_evs (evs : list eevent) : list bevent := flat_map (fun e => match e with EB b => [b] | _ => [] end) evs.
(* The texts shown, and the type reported last (history: most recent first; a reset forgets it). *)
Definition texts (evs : list eevent) : list (Z * option Z) := flat_map (fun e => match e with EText k ty => [(k, ty)] | _ => [] end) evs.
Fixpoint known_type (rh : list eop) : option Z :=
  match rh with
  | [] => None
  | EReport _ ty :: _ => ty
  | ERenew :: _ => None
  | _ :: rh' => known_type rh'
  end.
