(* C39: parameter up/down switches. C40: rotating messages. *)
From Verif.Lib Require Import Base.
From Verif.Model Require Import Midi Period Local.
From Verif.Spec Require Import Local.
From Verif.Proofs Require Local.

(* ---- C39 ---- *)

(* A press sends exactly one value, the current one plus the offset, kept within [0,max]; nothing if no value is known. *)
Theorem C39_push : forall c s t, 0 <= pc_max c ->
  sent (snd (pstep c s (PPush t))) = match p_value s with None => [] | Some v => [(t, nearest 0 (pc_max c) (v + pc_off c))] end.
Proof. exact Local.push_sent. Qed.
Print Assumptions C39_push.

(* The current value is what has been reported last or, for parameters with feedback, sent last. *)
Theorem C39_current_value : forall c s o, 0 <= pc_max c ->
  p_value (fst (pstep c s o)) =
  match o with
  | PReport v => v
  | _ => if pc_fb c then match sent (snd (pstep c s o)) with [] => p_value s | (_, v) :: _ => Some v end else p_value s
  end.
Proof. exact Local.value_step. Qed.
Print Assumptions C39_current_value.

(* Whatever happens, everything sent lies in [0,max]. *)
Theorem C39_in_range : forall c ops, 0 <= pc_max c ->
  forall t v, In (t, v) (sent (snd (run (pstep c) (new_pstate c) ops))) -> 0 <= v <= pc_max c.
Proof. exact Local.history_range. Qed.
Print Assumptions C39_in_range.

(* Without an explicit maximum, the maximum is the largest value the message can carry, and nothing else is ever sent. *)
Theorem C39_default_maximum : forall sysex, (forall w, fits sysex w <-> 0 <= w <= derived_max sysex None) /\
  (forall off rep fb ops t v, In (t, v) (sent (snd (run (pstep (mkPconf off (derived_max sysex None) rep fb))
     (new_pstate (mkPconf off (derived_max sysex None) rep fb)) ops))) -> fits sysex v).
Proof. split; intros; [apply Local.default_maximum | eapply Local.default_range; eauto]. Qed.
Print Assumptions C39_default_maximum.

(* If an update sends, then the switch is still held since the last send, which is more than the repeat interval ago. *)
Theorem C39_repeat_spaced : forall c ops t i, 0 <= pc_max c -> pc_rep c = Some i -> 0 < i -> sends c ops (PUpdate t) <> [] ->
  exists quiet t0, last_send c ops quiet t0 /\ t0 + i < t.
Proof. exact Local.repeat_spaced. Qed.
Print Assumptions C39_repeat_spaced.

(* And conversely a held switch does repeat at the first update after the interval. *)
Theorem C39_repeats : forall c ops quiet t0 t i, 0 <= pc_max c -> pc_rep c = Some i -> 0 < i -> last_send c ops quiet t0 ->
  (forall v, In (PReport v) quiet -> v <> None) -> t0 + i < t ->
  exists v, p_value (after c ops) = Some v /\ sends c ops (PUpdate t) = [(t, nearest 0 (pc_max c) (v + pc_off c))].
Proof. exact Local.repeats. Qed.
Print Assumptions C39_repeats.

(* After a release nothing is sent until the next press. *)
Theorem C39_release_stops : forall c ops ops2, (forall t, ~ In (PPush t) ops2) ->
  sent (snd (run (pstep c) (after c (ops ++ [PRelease])) ops2)) = [].
Proof. exact Local.stops_on_release. Qed.
Print Assumptions C39_release_stops.

(* Without a repeat interval, updates never send. *)
Theorem C39_no_repeat : forall c ops t, pc_rep c = None \/ pc_rep c = Some 0 -> sends c ops (PUpdate t) = [].
Proof. exact Local.no_repeat. Qed.
Print Assumptions C39_no_repeat.

(* What is shown for a new value: brightness factor between 0 and 1 (falling for negative offsets), nearest percentage in 0..100. *)
Theorem C39_display : forall c s v, p_value s = Some v -> 0 <= v <= pc_max c -> 0 < pc_max c -> p_shown s <> Some (Some v) ->
  exists num pct, p_draw c s = Ok (mkPstate (p_value s) (p_pushed s) (p_period s) (Some (Some v)), [PDraw num (pc_max c) (Some pct)]) /\
    0 <= num <= pc_max c /\ num = (if pc_off c <? 0 then pc_max c - v else v) /\
    0 <= pct <= 100 /\ 2 * Z.abs (pct * pc_max c - v * 100) <= pc_max c.
Proof. exact Local.drawn. Qed.
Print Assumptions C39_display.

(* Finding: when the configured maximum is below the device's range the brightness factor leaves [0,1]. *)
Theorem C39_display_refuted : exists c s num pct, pc_max c = 100 /\ p_value s = Some 127 /\
  (exists s', p_draw c s = Ok (s', [PDraw num (pc_max c) (Some pct)])) /\ num < 0 /\ pct > 100.
Proof.
  exists (mkPconf (-5) 100 (Some 200) false), (mkPstate (Some 127) false None None), (-27), 127.
  repeat split; try lia. eexists. reflexivity.
Qed.
Print Assumptions C39_display_refuted.

(* Finding: without feedback and before the device answers, a held switch keeps sending the same value. *)
Theorem C39_held_without_report_refuted : exists c ops, pc_off c = 10 /\
  sent (snd (run (pstep c) (new_pstate c) ops)) = [(1000, 60); (1201, 60); (1402, 60)].
Proof.
  exists (mkPconf 10 127 (Some 200) false), [PReport (Some 50); PPush 1000; PUpdate 1201; PUpdate 1402]. split; reflexivity.
Qed.
Print Assumptions C39_held_without_report_refuted.

Definition updown : pconf := mkPconf 20 127 (Some 200) true.
Example C39_ex : sent (snd (run (pstep updown) (new_pstate updown)
    [PPush 10; PReport (Some 50); PUpdate 500; PPush 1000; PUpdate 1200; PUpdate 1201; PUpdate 1402; PUpdate 1603; PRelease; PUpdate 3000;
     PReport (Some 3); PPush 4000]))
  = [(1000, 70); (1201, 90); (1402, 110); (1603, 127); (4000, 23)].
Proof. reflexivity. Qed.
Example C39_last_send_ex : last_send updown [PReport (Some 50); PPush 1000; PUpdate 1100] [PUpdate 1100] 1000 /\
  sends updown [PReport (Some 50); PPush 1000; PUpdate 1100] (PUpdate 1201) = [(1201, 90)].
Proof.
  split; [|reflexivity]. exists [PReport (Some 50)], (PPush 1000), 70. split; [reflexivity|]. split; [reflexivity|].
  intros a q b E. destruct a as [|a0 [|a1 a]]; cbn in E; injection E; intros; subst; try discriminate.
  split; [discriminate|reflexivity].
Qed.
Example C39_display_ex : p_draw updown (mkPstate (Some 64) false None None) =
  Ok (mkPstate (Some 64) false None (Some (Some 64)), [PDraw 64 127 (Some 50)]).
Proof. reflexivity. Qed.

(* ---- C40 ---- *)

(* Everything sent and shown, for every history of presses, releases and redraws: the message is chosen by the number of releases
   before, modulo the length of its own list. Nothing raises. *)
Theorem C40_trace : forall c ops, exists s, rrun c new_rstate ops = Ok (s, expected c 0 ops).
Proof. exact Local.rotate_main. Qed.
Print Assumptions C40_trace.

(* The k-th press and release send the k-th messages modulo the list lengths, and nothing else is sent. *)
Theorem C40_presses : forall c n, exists s ev, rrun c new_rstate (flat_map (fun _ => [RPush; RRelease]) (seq 0 n)) = Ok (s, ev) /\
  bytes_sent ev = flat_map (fun j => cyclic (ro_msgs c) j ++ cyclic (ro_rel c) j) (seq 0 n).
Proof. exact Local.rotate_presses. Qed.
Print Assumptions C40_presses.

(* Looper pedal switches: exactly one action sends, and it alternates between two program changes ... *)
Theorem C40_boomerang : forall pc1 pc2 bright dim color text n, exists cs, boomerang pc1 pc2 bright dim color text n = Ok cs /\
  length cs = Nat.max 1 n /\ (forall c, nth_error cs 0 = Some c -> ro_msgs c = [[207; pc1]; [207; pc2]] /\ ro_rel c = []) /\
  (forall i c, (0 < i)%nat -> nth_error cs i = Some c -> ro_msgs c = [] /\ ro_rel c = []).
Proof. exact Local.boomerang_ok. Qed.
Print Assumptions C40_boomerang.

(* ... and with several LEDs exactly one of them is bright, moving by one with each release. *)
Theorem C40_boomerang_leds : forall pc1 pc2 bright dim color text n cs c i ops s ev0, (2 <= n)%nat ->
  boomerang pc1 pc2 bright dim color text n = Ok cs -> nth_error cs i = Some c -> rrun c new_rstate ops = Ok (s, ev0) ->
  exists ev, rstep c s RDraw = Ok (s, ev) /\ led_of ev = [if (i =? n - 1 - releases ops mod n)%nat then bright else dim].
Proof. exact Local.boomerang_shown. Qed.
Print Assumptions C40_boomerang_leds.

Definition rot : rconf := mkRconf [[176; 80; 0]; [176; 89; 1]; [192; 5]] [[176; 1; 1]; [176; 1; 2]] [7; 8] [] [1; 2; 3; 4].
Example C40_ex : exists s ev, rrun rot new_rstate [RPush; RRelease; RPush; RPush; RRelease; RPush; RRelease; RPush] = Ok (s, ev) /\
  bytes_sent ev = [[176; 80; 0]; [176; 1; 1]; [176; 89; 1]; [176; 89; 1]; [176; 1; 2]; [192; 5]; [176; 1; 1]; [176; 80; 0]].
Proof. eexists _, _. split; reflexivity. Qed.
Example C40_boomerang_ex : exists cs c s ev, boomerang 17 25 9 1 5 2 3 = Ok cs /\ nth_error cs 1 = Some c /\
  rrun c new_rstate [RPush; RRelease] = Ok (s, ev) /\ rstep c s RDraw = Ok (s, [RLed 9; RBack 9]).
Proof. eexists _, _, _, _. repeat split; reflexivity. Qed.
