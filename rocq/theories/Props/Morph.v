(* C57: morph state display *)
From Coq Require Import QArith Qround Lqa.
From Verif.Lib Require Import Base.
From Verif.Model Require Import Morph.
From Verif.Spec Require Import Morph.
From Verif.Proofs Require Import Morph.
Open Scope Z_scope.

(* After any history, the colour a display update leaves on display is that of the specified morph state ... *)
Theorem C57_shown rnd conf ops k v :
  last_shown k (snd (run (mstep rnd conf) minit (ops ++ [MUpdate k v])))
  = Some (morph_color rnd (conf k) (morph_state conf (rev (ops ++ [MUpdate k v])))).
Proof. exact (update_shows rnd conf ops k v). Qed.
Print Assumptions C57_shown.

(* ... and lies between base and morphed colour, whatever floating point format is used. *)
Theorem C57_between rnd conf ops k v :
  rounding rnd -> Forall in_range (ops ++ [MUpdate k v]) ->
  mc_fix (conf k) = None -> good_rgb (mc_base (conf k)) -> good_rgb (mc_morph (conf k)) ->
  exists c, last_shown k (snd (run (mstep rnd conf) minit (ops ++ [MUpdate k v]))) = Some c
  /\ rgb_between (mc_base (conf k)) c (mc_morph (conf k)).
Proof.
  intros R F X B M. eexists. split; [apply update_shows|]. apply color_between; try assumption. apply state_range.
  apply Forall_rev. exact F.
Qed.
Print Assumptions C57_between.

(* Base colour at 0, morphed colour at 16383 *)
Theorem C57_ends rnd c : rounding rnd -> mc_fix c = None -> good_rgb (mc_base c) -> good_rgb (mc_morph c) ->
  morph_color rnd c 0 = mc_base c /\ morph_color rnd c 16383 = mc_morph c.
Proof. intros R. exact (color_ends rnd R c). Qed.
Print Assumptions C57_ends.

(* In between, each component moves monotonically. *)
Theorem C57_monotone rnd b m v w : rounding rnd -> v <= w ->
  (b <= m -> morph_component rnd b m v <= morph_component rnd b m w) /\ (m <= b -> morph_component rnd b m w <= morph_component rnd b m v).
Proof. intros R H. split; [exact (component_mono rnd R b m v w H)|exact (component_anti rnd R b m v w H)]. Qed.
Print Assumptions C57_monotone.

(* Commands: display-only actions never send; the others send 1 at each press and 0 at each release. *)
Theorem C57_commands rnd conf ops k :
  sets_of k (snd (run (mstep rnd conf) minit ops))
  = if mc_suppress (conf k) then []
    else flat_map (fun o => match o with MUser j on => if (j =? k)%nat then [if on then 1 else 0] else [] | _ => [] end) ops.
Proof. exact (sets_all rnd conf ops k). Qed.
Print Assumptions C57_commands.

(* Toggling twice restores a state which is fully morphed or not morphed. *)
Theorem C57_toggle_twice_partial rnd conf ops k :
  let st ops := m_over (fst (run (mstep rnd conf) minit ops)) in
  mc_suppress (conf k) = false -> st ops = 0 \/ st ops = 16383 ->
  st (ops ++ [MUser k true; MUser k false]) <> st ops
  /\ st (ops ++ [MUser k true; MUser k false; MUser k true; MUser k false]) = st ops.
Proof.
  cbv zeta beta. intros S H. pose proof (fun l => i_over _ _ _ (minv_all rnd conf l)) as E. revert H. rewrite !E. intros H. rewrite !rev_app_distr. cbn [rev app morph_state]. rewrite S.
  unfold toggled. destruct H as [-> | ->]; split; try reflexivity; discriminate.
Qed.
Print Assumptions C57_toggle_twice_partial.

(* A state half way is not restored: the first press resets it, the second one sets it to fully morphed. *)
Theorem C57_toggle_twice_refuted : exists rnd conf ops k,
  let st ops := m_over (fst (run (mstep rnd conf) minit ops)) in
  rounding rnd /\ mc_suppress (conf k) = false /\ Forall in_range ops
  /\ st (ops ++ [MUser k true; MUser k false; MUser k true; MUser k false]) <> st ops.
Proof.
  exists (fun q => q), (fun _ => mkMconf (255, 0, 0) (0, 0, 255) None false), [MUpdate 0 (Some 5000)], 0%nat. cbn zeta. repeat split.
  - intros x y H. exact H.
  - repeat constructor; cbn; lia.
  - vm_compute. discriminate.
Qed.
Print Assumptions C57_toggle_twice_refuted.

(* Two formats: exact numbers, and fixed point numbers with 12 fractional bits *)
Example ex_rounding_exact : rounding (fun q => q).
Proof. split; [intros x y H; exact H|reflexivity]. Qed.
Definition fixed12 (q : Q) : Q := (Qfloor (q * 4096) # 4096)%Q.
Example ex_rounding_fixed : rounding fixed12.
Proof.
  split.
  - intros x y H. unfold fixed12, Qle. cbn [Qnum Qden]. apply Z.mul_le_mono_nonneg_r; [lia|]. apply Qfloor_resp_le. apply Qmult_le_compat_r; [exact H|discriminate].
  - intros z _. unfold fixed12. change 4096%Q with (inject_Z 4096). rewrite <- inject_Z_mult, Qfloor_Z. unfold Qeq. cbn. lia.
Qed.
Definition ex_conf (k : nat) : mconf := mkMconf (255, 0, 0) (0, 0, 255) None (k =? 1)%nat.
Definition ex_ops : list mop := [MUpdate 0 (Some 0); MUpdate 1 (Some 0); MUser 0 true; MUser 0 false; MUpdate 1 (Some 0); MUpdate 1 (Some 8191); MEnablement 1; MUpdate 1 (Some 3); MUser 1 true; MUpdate 1 (Some 3)].
Example C57_ex : snd (run (mstep (fun q => q) ex_conf) minit ex_ops)
  = [MShow 0 (255, 0, 0); MShow 1 (255, 0, 0); MSet 0 1; MSet 0 0; MShow 1 (0, 0, 255); MShow 1 (128, 0, 127); MShow 1 (128, 0, 127)]
  /\ Forall in_range ex_ops.
Proof. split; [vm_compute; reflexivity|]. unfold ex_ops. repeat constructor; cbn; lia. Qed.
(* Finding: after switching rigs, the first new value is not shown on a rig select display (it is ignored on purpose), even if it is the
   actual morph state of the new rig. *)
Example C57_finding_ignored : morph_state ex_conf (rev [MUpdate 1 (Some 0); MRigChanged; MEnablement 1; MUpdate 1 (Some 16383)]) = 0.
Proof. reflexivity. Qed.
