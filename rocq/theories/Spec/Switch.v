(* What a user expects from a foot switch: edges, presses, clicks. *)
From Verif.Lib Require Import Base.
From Verif.Model Require Import Period Switch.

Definition enabled_of (p : poll) (l : list Z) : list Z := filter (p_enabled p) l.

(* A click on a list of actions: each enabled action is pushed and released, in order. *)
Definition click (p : poll) (l : list Z) : list switch_ev :=
  flat_map (fun a => [Push a; Release a]) (enabled_of p l).

(* Edge semantics: pushes at off-to-on, releases at on-to-off, nothing otherwise. *)
Fixpoint edges (acts : list Z) (prev : bool) (ps : list poll) : list switch_ev :=
  match ps with
  | [] => []
  | p :: ps' =>
      (match prev, p_pushed p with
       | false, true => map Push (enabled_of p acts)
       | true, false => map Release (enabled_of p acts)
       | _, _ => []
       end) ++ edges acts (p_pushed p) ps'
  end.

(* Override edges. *)
Fixpoint override_edges (prev : bool) (ps : list poll) : list switch_ev :=
  match ps with
  | [] => []
  | p :: ps' =>
      (match prev, p_pushed p with
       | false, true => [OvPush] | true, false => [OvRelease] | _, _ => [] end)
      ++ override_edges (p_pushed p) ps'
  end.

Definition no_override (ps : list poll) : Prop := Forall (fun p => p_override p = None) ps.
Definition all_pushed (ps : list poll) : Prop := Forall (fun p => p_pushed p = true) ps.
Definition all_released (ps : list poll) : Prop := Forall (fun p => p_pushed p = false) ps.

(* The switch is up at the end of a history. *)
Definition ends_up (ps : list poll) : Prop := ps = [] \/ exists ps' p, ps = ps' ++ [p] /\ p_pushed p = false.

(* Hold with repeat: a click on the hold actions whenever more than the hold time has passed since the press
   started at [mark] or since the last such click. [last_fire] is where it counts from afterwards. *)
Fixpoint repeats (hold : list Z) (time mark : Z) (ps : list poll) : list switch_ev :=
  match ps with
  | [] => []
  | p :: ps' => if mark + time <? p_now p then click p hold ++ repeats hold time (p_now p) ps'
                else repeats hold time mark ps'
  end.
Fixpoint last_fire (time mark : Z) (ps : list poll) : Z :=
  match ps with
  | [] => mark
  | p :: ps' => if mark + time <? p_now p then last_fire time (p_now p) ps' else last_fire time mark ps'
  end.
Definition fires (time mark : Z) (ps : list poll) : bool := existsb (fun p => mark + time <? p_now p) ps.

(* Histories of idle polls and complete presses in which no release came later than the hold time after the
   press or after the last repeat. *)
Inductive timely (time : Z) : list poll -> Prop :=
| timely_nil : timely time []
| timely_idle h p : timely time h -> p_pushed p = false -> timely time (h ++ [p])
| timely_press h p0 held pr : timely time h ->
    p_pushed p0 = true -> all_pushed held -> p_pushed pr = false ->
    p_now pr <= last_fire time (p_now p0) held + time ->
    timely time (h ++ p0 :: held ++ [pr]).

Definition is_hold_ev (c : switch_cfg) (e : switch_ev) : Prop :=
  match e with Push a | Release a => In a (sw_hold c) | _ => False end.
Definition is_normal_ev (c : switch_cfg) (e : switch_ev) : Prop :=
  match e with Push a | Release a => In a (sw_actions c) | _ => False end.

Fixpoint monotone (from : Z) (ps : list poll) : Prop :=
  match ps with [] => True | p :: ps' => from <= p_now p /\ monotone (p_now p) ps' end.

Definition actions_disjoint (c : switch_cfg) : Prop := forall a, In a (sw_hold c) -> ~ In a (sw_actions c).

(* Pushes and releases of one action alternate, starting with a push ([down] = pushed before). *)
Fixpoint alternates (a : Z) (down : bool) (evs : list switch_ev) : Prop :=
  match evs with
  | [] => True
  | Push b :: e => if a =? b then down = false /\ alternates a true e else alternates a down e
  | Release b :: e => if a =? b then down = true /\ alternates a false e else alternates a down e
  | _ :: e => alternates a down e
  end.

(* The switch has hold actions. *)
Definition hold_cfg (c : switch_cfg) : Prop := sw_hold c <> [].
(* An override is set that declines further processing, at every poll. *)
Definition declines (ps : list poll) : Prop := Forall (fun p => p_override p = Some false) ps.
Definition not_ov (e : switch_ev) : bool := match e with OvPush | OvRelease => false | _ => true end.
(* The same poll without override. *)
Definition erase (p : poll) : poll := mkPoll (p_pushed p) (p_now p) (p_enabled p) None.
