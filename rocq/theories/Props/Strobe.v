(* C48: the strobe tuner. *)
From Coq Require Import QArith Qround Qminmax.
From Verif.Lib Require Import Base.
From Verif.Model Require Import Period Strobe.
From Verif.Spec Require Import Strobe.
From Verif.Proofs Require Import Strobe.
Open Scope Z_scope.

(* For every history of tuner states and deviances at any times: after an update each switch shows the light of the spot that has
   travelled as specified; without an update nothing is set. (The light pattern is symmetric for widths up to one half.) *)
Theorem C48_leds_show_the_spot c ops o : good_conf c -> (st_width c <= 1 # 2)%Q ->
  exists s ev ev', strobe_run c (strobe_init c) ops = Some (s, ev)
  /\ option_map snd (strobe_run c (strobe_init c) (ops ++ [o])) = Some (ev ++ ev')
  /\ (t_updated (travelled c (ops ++ [o])) = false -> ev' = [])
  /\ (t_updated (travelled c (ops ++ [o])) = true -> forall i, (i < st_n c)%nat ->
        (leds_after (ev ++ ev') (fun _ => 0%Q) i == led c (circle_distance (place c i - turns c (t_dist (travelled c (ops ++ [o]))))))%Q).
Proof. exact (strobe_leds c ops o). Qed.
Print Assumptions C48_leds_show_the_spot.

(* For every width: brightness between 0 and the dim factor, position within one period, and the computation always ends. *)
Theorem C48_ranges c ops : good_conf c ->
  exists s ev, strobe_run c (strobe_init c) ops = Some (s, ev)
  /\ - st_speed c <= s_pos s <= st_speed c
  /\ (forall i q, In (SetBrightness i q) ev -> (i < st_n c)%nat /\ (0 <= q <= st_dim c)%Q).
Proof.
  intros G. destruct (run_ok c ops G) as (s & ev & E & I & _ & R). exists s, ev. split; [exact E|]. split; [apply I|exact R].
Qed.
Print Assumptions C48_ranges.

(* Nothing is ever done with fewer than two switches, or while the tuner has not been switched on. *)
Theorem C48_one_switch c ops : (st_n c <= 1)%nat -> exists s, strobe_run c (strobe_init c) ops = Some (s, []).
Proof. exact (one_switch c ops). Qed.
Print Assumptions C48_one_switch.

Theorem C48_tuner_off c ops : good_conf c -> (forall now, ~ In (TunerState 1 now) ops) ->
  exists s, strobe_run c (strobe_init c) ops = Some (s, []) /\ s_enabled s = false.
Proof. exact (never_on c ops). Qed.
Print Assumptions C48_tuner_off.

Definition ex_conf : strobe_conf := mkStrobe 2000000 (3 # 10) (1 # 10) false (interval_of 120 10) 10.
Example ex_conf_good : good_conf ex_conf.
Proof. unfold good_conf. repeat split; vm_compute; try lia; discriminate. Qed.
(* a note too high: the spot moves from switch 0 to higher switches *)
Definition ex_ops : list strobe_op := [TunerState 1 1000; Deviance 9191 1200].
Example C48_ex : t_updated (travelled ex_conf ex_ops) = true /\ t_dist (travelled ex_conf ex_ops) = 200000.
Proof. split; reflexivity. Qed.
Example C48_ex_events : option_map (fun r => Qeq_bool (leds_after (snd r) (fun _ => 0%Q) 1%nat) (1 # 10)) (strobe_run ex_conf (strobe_init ex_conf) ex_ops) = Some true.
Proof. vm_compute. reflexivity. Qed.
Example C48_ex_low : t_dist (travelled ex_conf [TunerState 1 1000; Deviance 7191 1200]) = -200000.
Proof. reflexivity. Qed.

(* Finding: brightness values are remembered while the tuner is off; if the switches were changed by something else meanwhile, an update
   at the same position sets no brightness at all. *)
Definition sets_brightness (e : strobe_ev) : bool := match e with SetBrightness _ _ => true | _ => false end.
Example C48_finding_stale :
  option_map (fun r => length (filter sets_brightness (snd r))) (strobe_run ex_conf (strobe_init ex_conf) [TunerState 1 1000; Deviance 8191 1200]) = Some 5%nat
  /\ option_map (fun r => length (filter sets_brightness (snd r)))
       (strobe_run ex_conf (strobe_init ex_conf) [TunerState 1 1000; Deviance 8191 1200; TunerState 0 1300; TunerState 1 5000; Deviance 8191 5200]) = Some 5%nat.
Proof. split; vm_compute; reflexivity. Qed.
(* Finding: with a width above one half the light is not symmetric. *)
Example C48_finding_wide : Qeq_bool (b_fn (3 # 10) (8 # 10)) (b_fn (7 # 10) (8 # 10)) = false.
Proof. reflexivity. Qed.
