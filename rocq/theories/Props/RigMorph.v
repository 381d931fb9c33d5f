(* C70: the morph state remembered by the rig switches is that of the device. *)
From Verif.Lib Require Import Base.
From Verif.Model Require Import Midi Rig.
From Verif.Spec Require Import Rig RigMorph.
From Verif.Proofs Require RigMorph.

(* The device morphs with its rig buttons; the switches are set up like it. Whatever is pressed, the remembered state is that of the device. *)
Theorem C70_follows : forall cfg momentary id0 w d h, (forall k, follows momentary (cfg k)) -> valid_id id0 ->
  together cfg momentary id0 w d h -> shown_morph w = snd d.
Proof. exact RigMorph.follow. Qed.
Print Assumptions C70_follows.

(* With momentary morphing nothing is morphed once the switch is let go. *)
Theorem C70_momentary : forall cfg id0 w d, (forall k, follows true (cfg k)) -> valid_id id0 -> together cfg true id0 w d None -> shown_morph w = 0.
Proof. exact RigMorph.momentary_over. Qed.
Print Assumptions C70_momentary.

(* Switch 0: rig 2 of bank 3, switch 1: rig 4 of the current bank, others: rig up. *)
Definition ex_cfg (momentary : bool) (k : nat) : cb :=
  match k with
  | 0%nat => RigSelect (mkRsCfg (Some 2) ONone (Some 3) ONone [] true momentary)
  | 1%nat => RigSelect (mkRsCfg (Some 4) ONone None ONone [] true momentary)
  | _ => RigChange true false
  end.
Example C70_ex_follows momentary k : follows momentary (ex_cfg momentary k).
Proof. destruct k as [|[|k]]; cbn; [| |exact I]; unfold good_rs; cbn; repeat split; try lia; discriminate. Qed.
(* morphed by the second press of switch 0, reset by rig up *)
Example C70_ex_toggle : exists w d, together (ex_cfg false) false 20 w d None /\ d_id (fst d) = 11 /\ shown_morph w = 16383 /\
  exists w' d', together (ex_cfg false) false 20 w' d' None /\ d_id (fst d') = 12 /\ shown_morph w' = 0.
Proof.
  assert (H : exists w d, together (ex_cfg false) false 20 w d None /\ w_id w = Some 11 /\ fst d = mkDevice 11 None /\ snd d = 16383 /\ shown_morph w = 16383 /\
    w_sh w = mkShared None (Some 16383) /\ k_sent (w_st w 2%nat) = None).
  { eexists _, _. split.
    - eapply (tg_release _ _ _ _ _ 0%nat 0%nat).
      + eapply (tg_press _ _ _ _ _ 0%nat 0%nat).
        * eapply tg_report. eapply (tg_release _ _ _ _ _ 0%nat 0%nat).
          -- eapply (tg_press _ _ _ _ _ 0%nat 0%nat); [eapply tg_report, tg_start|reflexivity|reflexivity].
          -- reflexivity.
        * reflexivity.
        * reflexivity.
      + reflexivity.
    - repeat split; reflexivity. }
  destruct H as (w & [d z] & H & Hi & Hd & Hz & Hm & Hs & Hk). cbn [fst snd] in *. subst d z. exists w, (mkDevice 11 None, 16383). split; [exact H|]. split; [reflexivity|]. split; [exact Hm|].
  eexists _, _. split.
  - eapply (tg_release _ _ _ _ _ 0%nat 2%nat); [eapply (tg_press _ _ _ _ _ 0%nat 2%nat); [exact H|exact Hi|]|].
    + cbn. rewrite Hi, Hs. cbn. reflexivity.
    + cbn. reflexivity.
  - split; reflexivity.
Qed.

(* Finding: BANK_SELECT for the current bank selects the current rig again, which morphs in the device; the remembered state is reset. *)
Theorem C70_bank_select_refuted : exists c w ev, wstep (fun _ => BankSelect c) 0 (mkWorld (Some 11) no_shared (fun _ => mkCbst None None None None)) (Press 0) = Some (w, ev) /\
  mreact_all false (mkDevice 11 None, 0) (map snd ev) = (mkDevice 11 None, 16383) /\ shown_morph w = 0.
Proof. exists (mkBsCfg 3 None false). eexists _, _. split; [reflexivity|]. split; reflexivity. Qed.
Print Assumptions C70_bank_select_refuted.
