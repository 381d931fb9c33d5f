(* C72: the tempo display blinks with the device, shows its tempo, and announces tempo changes. *)
From Verif.Lib Require Import Base.
From Verif.Model Require Import Tempo.
From Verif.Spec Require Import Tempo.
From Verif.Proofs Require Tempo.

(* Once drawn outside tuner mode, the LED is lit exactly if the pulse last reported is on. *)
Theorem C72_led : forall c ops v, value PTuner ops <> Some 1 -> value PPulse ops = Some v ->
  led_now (snd (run (tstep c) t_init (ops ++ [TDraw]))) = Some (0 <? v).
Proof. exact Tempo.led_shows. Qed.
Print Assumptions C72_led.
(* The label shows the tempo last reported (the configured text with it) ... *)
Theorem C72_text : forall c ops v, tc_display c = true -> (forall b, tc_text c b = true) -> value PTuner ops <> Some 1 -> value PBpm ops = Some v ->
  text_now (snd (run (tstep c) t_init (ops ++ [TDraw]))) = Some (convert_bpm v).
Proof. exact Tempo.text_shows. Qed.
Print Assumptions C72_text.
(* ... which is the nearest whole number of beats per minute (reported in 64ths), the even one of two. *)
Theorem C72_nearest : forall v, 2 * Z.abs (64 * convert_bpm v - v) <= 64 /\ (2 * Z.abs (64 * convert_bpm v - v) = 64 -> Z.even (convert_bpm v) = true).
Proof. exact Tempo.nearest. Qed.
Print Assumptions C72_nearest.
(* An empty text is never shown. *)
Theorem C72_no_empty_text : forall c ops, Forall (fun e => match e with TText b => tc_text c b = true | _ => True end) (snd (run (tstep c) t_init ops)).
Proof. exact Tempo.no_empty_text. Qed.
Print Assumptions C72_no_empty_text.
(* In tuner mode nothing is drawn, and nothing forgotten. *)
Theorem C72_tuner : forall c ops, value PTuner ops = Some 1 -> tstep c (fst (run (tstep c) t_init ops)) TDraw = (fst (run (tstep c) t_init ops), []).
Proof. exact Tempo.tuner_silent. Qed.
Print Assumptions C72_tuner.
(* Drawing again without anything new only sets the label's background (again). *)
Theorem C72_again : forall c ops, snd (tstep c (fst (run (tstep c) t_init (ops ++ [TDraw]))) TDraw) =
  if tc_display c then (match value PTuner ops with Some 1 => [] | _ => [TBack] end) else [].
Proof. exact Tempo.draw_again. Qed.
Print Assumptions C72_again.
(* A new tempo is announced exactly if it followed another one in the same rig. *)
Theorem C72_preview : forall c ops, tc_change c = true ->
  previews (snd (run (tstep c) t_init ops)) = map convert_bpm (followers (new_tempos None (sights [] ops))).
Proof. intros c ops H. exact (proj1 (Tempo.previews_all c ops H)). Qed.
Print Assumptions C72_preview.
Theorem C72_no_preview : forall c ops, tc_change c = false -> previews (snd (run (tstep c) t_init ops)) = [].
Proof. exact Tempo.no_previews. Qed.
Print Assumptions C72_no_preview.

(* Not so: every change of the tempo within a rig is announced. The first change in a rig which has the tempo of the rig before is not. *)
Theorem C72_every_change_refuted : ~ (forall c ops b b', tc_change c = true -> value PTuner ops = Some 0 -> value PBpm ops = Some b -> b <> b' ->
  previews (snd (run (tstep c) t_init (ops ++ [TDraw; TVal PBpm (Some b'); TDraw]))) = previews (snd (run (tstep c) t_init (ops ++ [TDraw]))) ++ [convert_bpm b']).
Proof.
  intros H. specialize (H (mkTc true true (fun _ => true)) [TVal PTuner (Some 0); TVal PRig (Some 1); TVal PBpm (Some 7680); TDraw; TVal PRig (Some 2); TDraw] 7680 7744 eq_refl eq_refl eq_refl).
  discriminate H. discriminate.
Qed.
Print Assumptions C72_every_change_refuted.

Definition ex_cfg : tcfg := mkTc true true (fun _ => true).
(* the tempo (120) is changed (121.5) in rig 1; rig 2 (90) is not announced *)
Definition ex_ops : list top :=
  [TVal PTuner (Some 0); TDraw; TVal PRig (Some 1); TDraw; TVal PBpm (Some 7680); TDraw; TVal PPulse (Some 1); TDraw; TVal PPulse (Some 0); TDraw;
   TVal PBpm (Some 7776); TDraw; TVal PRig (Some 2); TDraw; TVal PBpm (Some 5760)].
Example C72_ex : snd (run (tstep ex_cfg) t_init (ex_ops ++ [TDraw])) =
  [TBack; TBack; TBack; TText 120; TLed true; TBack; TLed false; TBack; TPreview 122; TBack; TText 122; TBack; TBack; TText 90].
Proof. reflexivity. Qed.
Example C72_ex_values : value PTuner ex_ops <> Some 1 /\ value PPulse ex_ops = Some 0 /\ value PBpm ex_ops = Some 5760 /\ followers (new_tempos None (sights [] (ex_ops ++ [TDraw]))) = [7776].
Proof. repeat split. discriminate. Qed.
Example C72_ex_tuner : value PTuner (ex_ops ++ [TVal PTuner (Some 1)]) = Some 1.
Proof. reflexivity. Qed.
