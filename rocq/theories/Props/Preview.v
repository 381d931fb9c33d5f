(* C47: value previews. *)
From Verif.Lib Require Import Base.
From Verif.Model Require Import Period Preview.
From Verif.Spec Require Import Preview.
From Verif.Proofs Require Preview.

(* From any state: a preview followed by any updates, parameter changes and background changes is displayed - as long as it is
   pinned, has no timeout, or no update came more than the timeout after it. Else the label shows its normal text. *)
Theorem C47_lifetime : forall s t c st to bl bc now ops, t <> 0 -> forallb passive ops = true ->
  let s' := fst (pvrun s (PPreview t c st to bl bc now :: ops)) in
  if st || (to =? 0) || negb (existsb (update_after (now + to)) ops) then previews s' t else no_preview s'.
Proof. exact Preview.lifetime. Qed.
Print Assumptions C47_lifetime.

(* A reset which is not immediate lets it stay for the timeout, also if it was pinned *)
Theorem C47_reset_later : forall s t c st to bl bc now ops1 now2 ops2, t <> 0 -> to <> 0 -> forallb passive ops1 = true -> forallb passive ops2 = true ->
  (st = true \/ existsb (update_after (now + to)) ops1 = false) ->
  let s' := fst (pvrun s (PPreview t c st to bl bc now :: ops1 ++ PReset false now2 :: ops2)) in
  if existsb (update_after (now2 + to)) ops2 then no_preview s' else previews s' t.
Proof. exact Preview.later. Qed.
Print Assumptions C47_reset_later.

(* An immediate reset always ends it; every reset restores the colour. *)
Theorem C47_reset_now : forall s now, no_preview (fst (pvstep s (PReset true now))).
Proof. intros. apply Preview.reset_clears. auto. Qed.
Print Assumptions C47_reset_now.
Theorem C47_reset_color : forall l0 ops s ev im now, history l0 ops s ev ->
  l_color (v_lbl (fst (pvstep s (PReset im now)))) = normal_color (v_lbl (fst (pvstep s (PReset im now)))).
Proof. intros. eapply Preview.reset_color, Preview.history_kept. eauto. Qed.
Print Assumptions C47_reset_color.

(* Entering a preview cancels exactly the other users which ever entered it, once each *)
Theorem C47_cancelled : forall l0 ops s ev t c st to bl bc now, history l0 ops s ev ->
  snd (pvstep s (PPreview t c st to bl bc now)) = map PCancel (others c (users ops [])) /\ NoDup (users ops []) /\
  forall u, In u (users ops []) <-> exists t st to bl bc now, In (PPreview t (Some u) st to bl bc now) ops.
Proof.
  intros. split; [eapply Preview.cancelled; eauto|]. split; [apply Preview.users_nodup; constructor|]. intros u. rewrite Preview.users_in. cbn [In]. tauto.
Qed.
Print Assumptions C47_cancelled.

(* Without preview the label has its normal colour, used as the actions use it *)
Theorem C47_color_back : forall bl l0 ops s ev, history l0 ops s ev -> forallb (blinks_as bl) ops = true -> no_preview s -> l_color (v_lbl s) = normal_color (v_lbl s).
Proof. exact Preview.color_back. Qed.
Print Assumptions C47_color_back.

Definition lab : plabel := mkPlabel None 7 (Some 7) 100 (Some 100) 1.
Example C47_ex : let ops := [PPreview 50 (Some 1%nat) true 1500 400 200 1000; PUpdate 5000; PRefresh 8; PReset false 6000; PUpdate 7000] in
  exists s ev, history lab ops s ev /\ previews s 50 /\ forallb (blinks_as (fun _ => 400)) ops = true /\
  no_preview (fst (pvstep s (PUpdate 7501))) /\ l_text (v_lbl (fst (pvstep s (PUpdate 7501)))) = 8 /\
  snd (pvstep s (PPreview 60 None false 1500 0 0 7100)) = [PCancel 1].
Proof. cbn zeta. eexists _, _. split; [split; [split; reflexivity|reflexivity]|]. repeat split. cbn. intros c H. injection H as <-. reflexivity. Qed.

(* Finding: a blinking preview which is not pinned can leave the blink colour behind when it times out. *)
Theorem C47_blink_refuted : exists ops s ev, history lab ops s ev /\ no_preview s /\ l_color (v_lbl s) <> normal_color (v_lbl s) /\
  forall now, l_color (v_lbl (fst (pvstep s (PUpdate now)))) <> normal_color (v_lbl (fst (pvstep s (PUpdate now)))).
Proof.
  exists [PPreview 50 None false 1500 400 200 1000; PUpdate 2600]. eexists _, _. split; [split; [split; reflexivity|reflexivity]|].
  split; [split; [reflexivity|cbn; intros c H; injection H as <-; reflexivity]|]. split; [discriminate|]. intros now. cbn. discriminate.
Qed.
Print Assumptions C47_blink_refuted.

(* Finding: a label without callback keeps the text of the preview after it is over. *)
Theorem C47_no_callback_refuted : exists l0 ops s ev, history l0 ops s ev /\ l_over (v_lbl s) = None /\ l_text l0 = 7 /\ l_text (v_lbl s) = 50.
Proof.
  exists (mkPlabel None 7 None 100 (Some 100) 1), [PPreview 50 None false 1500 0 0 1000; PUpdate 2600]. eexists _, _.
  split; [split; [split; reflexivity|reflexivity]|]. repeat split.
Qed.
Print Assumptions C47_no_callback_refuted.
