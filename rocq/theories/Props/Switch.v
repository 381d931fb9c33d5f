(* C25 - C28: foot switches. *)
From Verif.Lib Require Import Base.
From Verif.Model Require Import Period Switch.
From Verif.Spec Require Import Switch.
From Verif.Proofs Require Import Switch.

Definition yes : Z -> bool := fun _ => true.
Definition P (pushed : bool) (t : Z) : poll := mkPoll pushed t yes None.

(* ---- C25 ---- *)

(* Over any poll sequence, a switch without hold actions produces exactly the edges of the hardware state. *)
Theorem C25_edges : forall acts repeat T ps, no_override ps ->
  snd (run (process (mkSwitchCfg acts [] repeat)) (new_switch T) ps) = edges acts false ps.
Proof. exact (fun acts r T ps H => plain_run acts r (new_switch T) ps H eq_refl). Qed.
Print Assumptions C25_edges.

(* Pushes and releases of an action that stays enabled strictly alternate, starting with a push. *)
Theorem C25_alternate : forall acts a down ps,
  NoDup acts -> In a acts -> Forall (fun p => p_enabled p a = true) ps ->
  alternates a down (edges acts down ps).
Proof. exact edges_alternate. Qed.
Print Assumptions C25_alternate.

Example C25_ex :
  no_override [P false 0; P true 1; P true 2; P false 3; P true 4] /\
  edges [7; 8] false [P false 0; P true 1; P true 2; P false 3; P true 4]
  = [Push 7; Push 8; Release 7; Release 8; Push 7; Push 8].
Proof. split; [repeat constructor|reflexivity]. Qed.

(* Finding: the enablement is asked separately at press and release, so an action enabled in between gets a
   release without a press (and one disabled in between never gets its release). *)
Theorem C25_paired_release_refuted :
  exists acts ps a, no_override ps /\ In a acts /\
    snd (run (process (mkSwitchCfg acts [] false)) (new_switch 600) ps) = [Release a].
Proof.
  exists [7], [mkPoll true 10 (fun _ => false) None; mkPoll false 20 yes None], 7.
  split; [repeat constructor|]. split; [left; reflexivity|reflexivity].
Qed.
Print Assumptions C25_paired_release_refuted.

(* ---- C26 ---- *)

(* After any history that ends with the switch up, a complete press (first poll p0, any polls while held, the
   release poll) clicks the hold actions once, at the first poll more than the hold time after p0, and nothing
   else; if there is no such poll it clicks the normal actions once, at the release. *)
Theorem C26_press : forall c T h p0 held pr,
  hold_cfg c -> sw_repeat c = false -> no_override (h ++ p0 :: held ++ [pr]) -> ends_up h ->
  p_pushed p0 = true -> all_pushed held -> p_pushed pr = false ->
  snd (run (process c) (fst (run (process c) (new_switch T) h)) (p0 :: held ++ [pr])) =
  match find (fun p => p_now p0 + T <? p_now p) held with
  | Some p => click p (sw_hold c)
  | None => if p_now p0 + T <? p_now pr then click pr (sw_hold c) else click pr (sw_actions c)
  end.
Proof. exact press_full. Qed.
Print Assumptions C26_press.

(* While still held: nothing but the single hold click. *)
Theorem C26_while_held : forall c T h p0 held,
  hold_cfg c -> sw_repeat c = false -> no_override (h ++ p0 :: held) -> ends_up h ->
  p_pushed p0 = true -> all_pushed held ->
  snd (run (process c) (fst (run (process c) (new_switch T) h)) (p0 :: held)) =
  match find (fun p => p_now p0 + T <? p_now p) held with
  | Some p => click p (sw_hold c)
  | None => []
  end.
Proof. exact press_held_ev. Qed.
Print Assumptions C26_while_held.

(* Between presses: nothing. *)
Theorem C26_idle : forall c T h ps,
  hold_cfg c -> sw_repeat c = false -> no_override (h ++ ps) -> ends_up h -> all_released ps ->
  snd (run (process c) (fst (run (process c) (new_switch T) h)) ps) = [].
Proof. exact idle_quiet. Qed.
Print Assumptions C26_idle.

Definition cfg26 := mkSwitchCfg [1] [2] false.
Example C26_ex :
  hold_cfg cfg26 /\ ends_up [P true 5; P false 9] /\
  snd (run (process cfg26) (fst (run (process cfg26) (new_switch 600) [P true 5; P false 9]))
       (P true 1000 :: [P true 1300; P true 1601; P true 2500] ++ [P false 2600])) = [Push 2; Release 2].
Proof. split; [discriminate|]. split; [right; exists [P true 5], (P false 9); split; reflexivity|reflexivity]. Qed.

(* ---- C27 ---- *)

(* Hold clicks are more than the hold time apart in every history (clock not running backwards). *)
Theorem C27_hold_clicks_apart : forall c T h p1 mid p2 t0,
  hold_cfg c -> actions_disjoint c -> no_override (h ++ p1 :: mid ++ [p2]) ->
  monotone t0 (h ++ p1 :: mid ++ [p2]) ->
  let s1 := fst (run (process c) (new_switch T) h) in
  let s2 := fst (run (process c) s1 (p1 :: mid)) in
  (exists e, In e (snd (process c s1 p1)) /\ is_hold_ev c e) ->
  (exists e, In e (snd (process c s2 p2)) /\ is_hold_ev c e) ->
  p_now p1 + T < p_now p2.
Proof. exact hold_clicks_apart. Qed.
Print Assumptions C27_hold_clicks_apart.

(* A press during which a hold click happened never triggers normal actions: from every state [s]. *)
Theorem C27_exclusive : forall c s ps pr,
  hold_cfg c -> sw_repeat c = true -> actions_disjoint c -> no_override (ps ++ [pr]) ->
  all_pushed ps -> p_pushed pr = false ->
  (exists e, In e (snd (run (process c) s ps)) /\ is_hold_ev c e) ->
  forall e, In e (snd (run (process c) s (ps ++ [pr]))) -> ~ is_normal_ev c e.
Proof. exact press_exclusive. Qed.
Print Assumptions C27_exclusive.

(* Partial: the exact behaviour of each press, independent of the presses before, provided that no release
   (of this press or an earlier one) came later than the hold time after the press or the last repeat.
   Missing: independence without that proviso, which is false, see C27_independent_refuted. *)
Theorem C27_press_partial : forall c T h p0 held pr,
  hold_cfg c -> sw_repeat c = true -> timely T h -> no_override (h ++ p0 :: held ++ [pr]) ->
  p_pushed p0 = true -> all_pushed held -> p_pushed pr = false ->
  p_now pr <= last_fire T (p_now p0) held + T ->
  snd (run (process c) (fst (run (process c) (new_switch T) h)) (p0 :: held ++ [pr])) =
  if fires T (p_now p0) held then repeats (sw_hold c) T (p_now p0) held else click pr (sw_actions c).
Proof. exact repeat_press_history. Qed.
Print Assumptions C27_press_partial.

Definition cfg27 := mkSwitchCfg [1] [2] true.
Example C27_ex :
  let held := [P true 1300; P true 1601; P true 2500; P true 3000] in
  hold_cfg cfg27 /\ actions_disjoint cfg27 /\ timely 600 [] /\ all_pushed held /\
  3050 <= last_fire 600 1000 held + 600 /\
  snd (run (process cfg27) (new_switch 600) (P true 1000 :: held ++ [P false 3050]))
  = [Push 2; Release 2; Push 2; Release 2].
Proof.
  cbn zeta. split; [discriminate|]. split; [intros a [<-|[]] [H|[]]; discriminate|]. split; [constructor|].
  split; [repeat constructor|]. split; [vm_compute; discriminate|reflexivity].
Qed.

(* Finding: when the release itself is the first poll after the hold time, the hold flags stay set; the next
   short press then triggers nothing at all (first part) or, after a pause, a hold click at its very
   beginning (second part), although the same press after a fresh start clicks the normal actions. *)
Theorem C27_independent_refuted :
  exists c T h p0 pr,
    hold_cfg c /\ sw_repeat c = true /\ no_override (h ++ [p0; pr]) /\ ends_up h /\
    p_pushed p0 = true /\ p_pushed pr = false /\ p_now pr <= p_now p0 + T /\
    snd (run (process c) (new_switch T) [p0; pr]) = click pr (sw_actions c) /\
    snd (run (process c) (fst (run (process c) (new_switch T) h)) [p0; pr]) = [].
Proof.
  exists cfg27, 600, [P true 1000; P false 1601], (P true 1700), (P false 1800).
  split; [discriminate|]. split; [reflexivity|]. split; [repeat constructor|].
  split; [right; exists [P true 1000], (P false 1601); split; reflexivity|].
  split; [reflexivity|]. split; [reflexivity|]. split; [vm_compute; discriminate|].
  split; reflexivity.
Qed.
Print Assumptions C27_independent_refuted.

Theorem C27_spurious_hold_refuted :
  exists c T h p0 pr,
    hold_cfg c /\ sw_repeat c = true /\ no_override (h ++ [p0; pr]) /\ ends_up h /\
    p_pushed p0 = true /\ p_pushed pr = false /\ p_now pr <= p_now p0 + T /\
    snd (run (process c) (fst (run (process c) (new_switch T) h)) [p0; pr]) = click p0 (sw_hold c).
Proof.
  exists cfg27, 600, [P true 1000; P false 1601], (P true 5000), (P false 5100).
  split; [discriminate|]. split; [reflexivity|]. split; [repeat constructor|].
  split; [right; exists [P true 1000], (P false 1601); split; reflexivity|].
  split; [reflexivity|]. split; [reflexivity|]. split; [vm_compute; discriminate|]. reflexivity.
Qed.
Print Assumptions C27_spurious_hold_refuted.

(* ---- C28 ---- *)

(* Partial: while a declining override is set, starting from a state in which no hold is armed (always true for
   switches without hold actions, C28_never_armed), only the override is called, exactly at the hardware edges.
   Missing: the same from states with an armed hold, which is false, see C28_armed_hold_refuted. *)
Theorem C28_declined_partial : forall c s ps, declines ps -> hold_active s = false ->
  snd (run (process c) s ps) = override_edges (pushed_state s) ps.
Proof. exact declined_run. Qed.
Print Assumptions C28_declined_partial.

Theorem C28_never_armed : forall acts r T ps,
  hold_active (fst (run (process (mkSwitchCfg acts [] r)) (new_switch T) ps)) = false.
Proof. exact plain_hold_inactive. Qed.
Print Assumptions C28_never_armed.

(* An override that accepts further processing adds its own calls and changes nothing else. *)
Theorem C28_accepting_transparent : forall c s ps, Forall (fun p => p_override p = Some true) ps ->
  filter not_ov (snd (run (process c) s ps)) = snd (run (process c) s (map erase ps)).
Proof. exact accepting_run. Qed.
Print Assumptions C28_accepting_transparent.

Definition O (pushed : bool) (t : Z) : poll := mkPoll pushed t yes (Some false).
Example C28_ex :
  declines [O true 1; O true 2; O false 3] /\ hold_active (new_switch 600) = false /\
  snd (run (process cfg26) (new_switch 600) [O true 1; O true 2; O false 3]) = [OvPush; OvRelease].
Proof. split; [repeat constructor|]. split; reflexivity. Qed.

(* Finding: a hold armed before the override appears still fires under the override ... *)
Theorem C28_armed_hold_refuted :
  exists c T h ps, no_override h /\ declines ps /\
    snd (run (process c) (fst (run (process c) (new_switch T) h)) ps) = [Push 2; Release 2].
Proof. exists cfg26, 600, [P true 1000], [O true 1601]. split; [repeat constructor|]. split; [repeat constructor|reflexivity]. Qed.
Print Assumptions C28_armed_hold_refuted.

(* ... and when the release goes to the override the hold stays armed: the first poll of a later short press,
   long after the override is gone, clicks the hold actions. *)
Theorem C28_leftover_hold_refuted :
  exists c T h ps p0 pr, sw_repeat c = false /\ no_override h /\ declines ps /\ ends_up (h ++ ps) /\
    p_override p0 = None /\ p_override pr = None /\
    p_pushed p0 = true /\ p_pushed pr = false /\ p_now pr <= p_now p0 + T /\
    snd (run (process c) (fst (run (process c) (new_switch T) (h ++ ps))) [p0; pr]) = click p0 (sw_hold c).
Proof.
  exists cfg26, 600, [P true 1000], [O false 1100], (P true 9000), (P false 9100).
  split; [reflexivity|]. split; [repeat constructor|]. split; [repeat constructor|].
  split; [right; exists [P true 1000], (O false 1100); split; reflexivity|].
  split; [reflexivity|]. split; [reflexivity|]. split; [reflexivity|]. split; [reflexivity|].
  split; [vm_compute; discriminate|]. reflexivity.
Qed.
Print Assumptions C28_leftover_hold_refuted.

(* A press that began under an override releases the actions without having pushed them when the override
   disappears before the release; and the other way round leaves an action pushed for ever. *)
Theorem C28_unpaired_refuted :
  exists c T p0 pr, declines [p0] /\ no_override [pr] /\
    snd (run (process c) (new_switch T) [p0; pr]) = [OvPush; Release 1].
Proof. exists (mkSwitchCfg [1] [] false), 600, (O true 10), (P false 20). split; [repeat constructor|]. split; [repeat constructor|reflexivity]. Qed.
Print Assumptions C28_unpaired_refuted.
