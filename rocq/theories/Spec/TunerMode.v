(* Tuner mode as the user sees it: defined on the history of what happened, not on the state of the program. *)
From Verif.Lib Require Import Base.
From Verif.Model Require Import Switch TunerMode.

(* The device is in tuner mode: the last reported value of the tuner parameter is 1. *)
Definition reported (o : tmop) : option (option Z) := match o with TValue v => Some v | _ => None end.
Fixpoint last_report (h : list tmop) (d : option Z) : option Z :=
  match h with [] => d | o :: h' => last_report h' (match reported o with Some v => v | None => d end) end.
Definition in_tuner (h : list tmop) : Prop := last_report h None = Some 1.

(* The foot is on switch j: its last poll found it pushed. *)
Fixpoint foot (j : nat) (h : list tmop) (d : bool) : bool :=
  match h with
  | [] => d
  | TPoll i p _ _ :: h' => foot j h' (if (i =? j)%nat then p else d)
  | _ :: h' => foot j h' d
  end.
Definition down (j : nat) (h : list tmop) : Prop := foot j h false = true.

(* The next operation o is the moment a switch of the device goes down / up while the device is in tuner mode. *)
Definition tuner_press (c : tmcfg) (h : list tmop) (o : tmop) : Prop :=
  in_tuner h /\ exists j now en, (j < tm_n c)%nat /\ o = TPoll j true now en /\ ~ down j h.
Definition tuner_release (c : tmcfg) (h : list tmop) (o : tmop) : Prop :=
  in_tuner h /\ exists j now en, (j < tm_n c)%nat /\ o = TPoll j false now en /\ down j h.

(* Some switch was pressed in tuner mode and no switch has been released in tuner mode since. *)
Definition armed (c : tmcfg) (h : list tmop) : Prop :=
  exists h1 o h2, h = h1 ++ o :: h2 /\ tuner_press c h1 o /\
    forall k1 o' k2, h2 = k1 ++ o' :: k2 -> ~ tuner_release c (h1 ++ o :: k1) o'.

(* What happens at operation o after history h. *)
Definition outputs (c : tmcfg) (h : list tmop) (o : tmop) : list tmev := snd (tm_step c (fst (run (tm_step c) (tm_init c) h)) o).

(* Switches without hold actions; or the overridden actions are not processed, the hold actions do not repeat, and whenever tuner mode
   was entered the switches with hold actions were up. *)
Definition plain (c : tmcfg) (j : nat) : Prop := sw_hold (tm_switch c j) = [].
Definition calm (c : tmcfg) (h : list tmop) : Prop :=
  forall j, (j < tm_n c)%nat -> plain c j \/
    (tm_process c = false /\ sw_repeat (tm_switch c j) = false /\
     forall h1 h2, h = h1 ++ TValue (Some 1) :: h2 -> ~ in_tuner h1 -> ~ down j h1).

(* The commands among the outputs. *)
Definition is_act (e : tmev) : bool := match e with TAct _ _ => true | _ => false end.
Definition is_off (e : tmev) : bool := match e with TOff => true | _ => false end.

(* Enabled actions of a switch. *)
Definition pushes (c : tmcfg) (j : nat) (en : Z -> bool) : list tmev := map (fun a => TAct j (Push a)) (filter en (sw_actions (tm_switch c j))).
Definition releases (c : tmcfg) (j : nat) (en : Z -> bool) : list tmev := map (fun a => TAct j (Release a)) (filter en (sw_actions (tm_switch c j))).
