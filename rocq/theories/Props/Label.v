(* C66: display labels. C67: the rig label. *)
From Verif.Lib Require Import Base.
From Verif.Model Require Import Midi Label.
From Verif.Spec Require Import Label.
From Verif.Proofs Require Import Label RigLabel.
From Coq Require Import String.
Local Open Scope Z_scope.
Local Open Scope list_scope.

(* C66. After any history the screen shows the last text written (or the configured one), wrapped; the label itself tells the same. *)
Theorem C66_text : forall w t0 c b h l e s, lrun w (new_label t0 c b) h = Ok (l, e) -> screen_of e = Some s ->
  exists t, last_written t0 h t /\ s_text s = wraps w t /\ l_text l = t /\ (forall t', last_written t0 h t' -> t' = t).
Proof.
  intros w t0 c b h l e s H HS. exists (l_text l). pose proof (text_run _ _ _ _ _ _ _ H) as HT. destruct (label_shows _ _ _ _ _ _ _ _ H HS) as [-> _].
  repeat split; auto. intros t' H'. eapply last_written_fun; eauto.
Qed.
Print Assumptions C66_text.

(* The screen shows the background last assigned, and the label appears exactly by initialising it. *)
Theorem C66_background : forall w t0 c b h l e, lrun w (new_label t0 c b) h = Ok (l, e) ->
  (screen_of e <> None <-> shown h) /\ (forall s, screen_of e = Some s -> s_back s = last_back h b /\ s_color s = l_color l).
Proof.
  intros w t0 c b h l e H. split; [exact (label_on _ _ _ _ _ _ _ H)|]. intros s HS. destruct (label_shows _ _ _ _ _ _ _ _ H HS) as [-> _]. auto.
Qed.
Print Assumptions C66_background.

(* Without a configured or assigned text colour the text is white or black and its brightness always differs from the background by
   more than 45 % of the range. *)
Theorem C66_readable : forall w t0 b h l e s, colourless h -> solid (last_back h b) = true -> lrun w (new_label t0 None b) h = Ok (l, e) -> screen_of e = Some s ->
  exists c, s_color s = Some c /\ (c = (255, 255, 255) \/ c = (0, 0, 0)) /\ 1149490 <= Z.abs (brightness c - brightness (behind (s_back s))).
Proof. exact contrast_run. Qed.
Print Assumptions C66_readable.

(* A configured text colour is kept whatever happens to text and background. *)
Theorem C66_configured_color : forall w t0 c b h l e s, (forall x, ~ In (LColor x) h) -> lrun w (new_label t0 (Some c) b) h = Ok (l, e) -> screen_of e = Some s ->
  s_color s = Some c.
Proof.
  intros w t0 c b h l e s HC H HS. destruct (label_shows _ _ _ _ _ _ _ _ H HS) as [-> _]. exact (fixed_run _ _ _ _ _ _ _ HC H).
Qed.
Print Assumptions C66_configured_color.

(* An assigned text colour stays until the next assignment or a change of the background. *)
Theorem C66_assigned_color : forall w t0 c0 b h1 c h2 l e s, (forall x, ~ In (LColor x) h2) -> (forall x, In (LBack x) h2 -> x = last_back h1 b) ->
  lrun w (new_label t0 c0 b) (h1 ++ LColor (Some c) :: h2) = Ok (l, e) -> screen_of e = Some s -> s_color s = Some c.
Proof.
  intros w t0 c0 b h1 c h2 l e s HC HB H HS. destruct (label_shows _ _ _ _ _ _ _ _ H HS) as [-> _]. exact (color_assigned _ _ _ _ _ _ _ _ _ HC HB H).
Qed.
Print Assumptions C66_assigned_color.

(* A change of the background brings back the configured text colour, or a readable one. *)
Theorem C66_color_after_background : forall w t0 c0 b h1 bb h2 l e s, bb <> last_back h1 b -> (forall x, ~ In (LColor x) h2) -> (forall x, In (LBack x) h2 -> x = bb) ->
  solid bb = true -> lrun w (new_label t0 c0 b) (h1 ++ LBack bb :: h2) = Ok (l, e) -> screen_of e = Some s ->
  exists x, s_color s = Some x /\ match c0 with Some y => x = y | None => 1149490 <= Z.abs (brightness x - brightness (behind bb)) end.
Proof.
  intros w t0 c0 b h1 bb h2 l e s HN HC HB HS H HE. destruct (label_shows _ _ _ _ _ _ _ _ H HE) as [-> _].
  destruct (color_reset _ _ _ _ _ _ _ _ _ HN HC HB H) as (x & E & K). exists x. split; [exact E|]. destruct c0; [exact K|]. apply determine_contrast; assumption.
Qed.
Print Assumptions C66_color_after_background.

(* The only mistake is to add or remove a background. *)
Theorem C66_raises : forall w t0 c b h, solid b = true -> plain_backs h ->
  (lrun w (new_label t0 c b) h = Raise <-> exists x, In (LBack x) h /\ is_none x <> is_none b).
Proof. intros w t0 c b h HS HP. exact (run_raises w h (new_label t0 c b) HS HP). Qed.
Print Assumptions C66_raises.

(* Nothing is drawn unless something changes. *)
Theorem C66_draws_changes : forall w t0 c b h l e o l' e', lrun w (new_label t0 c b) h = Ok (l, e) -> shown h -> lstep w l o = Ok (l', e') -> e' <> [] ->
  l_text l' <> l_text l \/ l_color l' <> l_color l \/ l_back l' <> l_back l.
Proof.
  intros w t0 c b h l e o l' e' H HS HO HE. destruct (run_attrs _ _ _ _ _ _ _ H) as (_ & _ & _ & A4 & _). apply (step_draws _ _ _ _ _ HO HE). tauto.
Qed.
Print Assumptions C66_draws_changes.

(* Finding: the rainbow backgrounds announced in the description of the layout (elements.py:23) make the label raise when it is shown. *)
Theorem C66_rainbow_refuted : forall w t0 cs, lrun w (new_label t0 None (Some (Rainbow cs))) [LInit] = Raise.
Proof. reflexivity. Qed.
Print Assumptions C66_rainbow_refuted.

Definition blue : back := Solid (0, 0, 255).
Definition yellow : back := Solid (255, 255, 0).
Example C66_ex : exists l, lrun (fun t => t) (new_label "Hi" None (Some blue))
    [LInit; LText "Rig"; LBack (Some yellow); LBack (Some yellow); LOver "Bank 3"; LRefresh (Some "Rig"); LText "x"; LRefresh None; LLow true; LRefresh None]%string =
  Ok (l, [DNew "Hi" (Some (255, 255, 255)) (Some blue); DText "Rig"; DBack yellow; DColor (0, 0, 0); DText "Bank 3"; DText "x"; DText "Bank 3"; DText "Low Memory!"]%string).
Proof. eexists. vm_compute. reflexivity. Qed.
Example C66_ex_readable : exists l e s, lrun (fun t => t) (new_label "Hi" None (Some blue)) [LInit; LBack (Some yellow)] = Ok (l, e) /\ screen_of e = Some s /\
  s = mkScreen "Hi" (Some (0, 0, 0)) (Some yellow) /\ colourless [LInit; LBack (Some yellow)].
Proof. eexists _, _, _. split; [vm_compute; reflexivity|]. split; [reflexivity|]. split; [reflexivity|]. intros c [E|[E|[]]]; discriminate. Qed.
Example C66_ex_written : last_written "Hi" [LInit; LOver "a"; LText "b"; LRefresh (Some "c"); LBack None]%string "a".
Proof.
  left. exists [LInit; LOver "a"; LText "b"]%string, (LRefresh (Some "c"%string)), [LBack None]. split; [reflexivity|]. split.
  - apply writes_asked; [apply asks_over; [reflexivity|discriminate]|]. intros [_ K]. discriminate.
  - intros [|x k1] o' k2 t' E W.
    + injection E as <- <-. inversion W; subst; try discriminate; match goal with K : asks _ _ _ |- _ => inversion K end.
    + injection E as _ E. destruct k1; discriminate.
Qed.
Example C66_ex_raises : lrun (fun t => t) (new_label "Hi" None None) [LInit; LBack (Some blue)] = Raise.
Proof. reflexivity. Qed.

(* C67. Once the device has answered (or a request was given up), the rig label shows the preselected bank, or the rig as configured, and
   follows the answers, as long as the preselection does not change. *)
Theorem C67_shows_partial : forall w c t0 c0 b0 h1 o h2 s e, own (h1 ++ o :: h2) -> ids_valid (h1 ++ o :: h2) -> In (RLabel LInit) h1 -> answers c o ->
  (rc_name c = true \/ (forall v, In (RId v) (o :: h2) -> v <> None)) -> (forall b, ~ In (RShared b) h2) ->
  rrun w c (new_rl (new_label t0 c0 b0)) (h1 ++ o :: h2) = Ok (s, e) -> screen_text e = Some (wraps w (to_show c (h1 ++ o :: h2))).
Proof. exact label_right. Qed.
Print Assumptions C67_shows_partial.

(* A newly preselected bank is shown from the next update on, until the preselection changes. *)
Theorem C67_preselection : forall w c t0 c0 b0 h1 b h2 s e, own (h1 ++ RShared (Some b) :: h2) -> ids_valid (h1 ++ RShared (Some b) :: h2) ->
  rc_name c = true \/ rc_id c <> IdOff -> In (RLabel LInit) h1 -> ~ at_last_update h1 (Some b) -> (forall x, ~ In (RShared x) h2) -> In RUpdate h2 ->
  rrun w c (new_rl (new_label t0 c0 b0)) (h1 ++ RShared (Some b) :: h2) = Ok (s, e) -> screen_text e = Some (wraps w (bank_label b)).
Proof. exact preselection_shown. Qed.
Print Assumptions C67_preselection.

(* Bank and rig number together tell all rigs apart, and the banks too. *)
Theorem C67_unique : forall i j, 0 <= i -> 0 <= j -> id_parts IdBoth (Some i) = id_parts IdBoth (Some j) -> i = j.
Proof. exact id_unique. Qed.
Print Assumptions C67_unique.
Theorem C67_unique_bank : forall a b, bank_label a = bank_label b -> a = b.
Proof. intros a b E. unfold bank_label in E. cbn in E. injection E as E. apply dec_inj in E. lia. Qed.
Print Assumptions C67_unique_bank.

Definition both : rconf := mkRconf true IdBoth "PySwitch".
Definition cancelled : list rop := [RLabel LInit; RName (Some "Crunch"%string); RShared (Some 3); RUpdate; RShared None].
Definition start : rlabel := new_rl (new_label "" None None).

(* Finding: when the preselection ends without a new answer of the device, the label keeps showing the bank, however often it is updated. *)
Theorem C67_end_of_preselection_refuted : forall n, exists s e, own (cancelled ++ repeat RUpdate n) /\
  rrun (fun t => t) both start (cancelled ++ repeat RUpdate n) = Ok (s, e) /\
  screen_text e = Some "Bank 4"%string /\ to_show both (cancelled ++ repeat RUpdate n) = "Crunch"%string.
Proof.
  intros n. destruct (stale_forever (fun t => t) both (mkRl (mkLabel "Bank 4" (Some WHITE) None None "" true false) (Some "Crunch"%string) None None (Some 3)) n eq_refl eq_refl) as (s & E & _).
  exists s, [DNew "" (Some WHITE) None; DText "Crunch"; DText "Bank 4"]%string. split; [|split].
  - intros o Ho. unfold cancelled in Ho. cbn [app In] in Ho. repeat (destruct Ho as [Ho|Ho]; [congruence|]). apply repeat_spec in Ho. discriminate.
  - change [DNew "" (Some WHITE) None; DText "Crunch"; DText "Bank 4"]%string with ([DNew "" (Some WHITE) None; DText "Crunch"%string; DText "Bank 4"%string] ++ []).
    eapply rrun_join; [|exact E]. vm_compute. reflexivity.
  - split; [reflexivity|]. unfold to_show. rewrite name_of_app, id_of_app, pre_of_app. cbn. 
    assert (KN : forall m d, name_of (repeat RUpdate m) d = d) by (induction m; cbn; auto).
    assert (KI : forall m d, id_of (repeat RUpdate m) d = d) by (induction m; cbn; auto).
    assert (KP : forall m d, pre_of (repeat RUpdate m) d = d) by (induction m; cbn; auto).
    rewrite KN, KI, KP. reflexivity.
Qed.
Print Assumptions C67_end_of_preselection_refuted.

(* Finding: a bank preselected again before the next update, with an answer in between, is not shown. *)
Theorem C67_preselected_again_refuted : exists h s e, h = [RLabel LInit; RShared (Some 3); RUpdate; RShared None; RName (Some "Crunch"); RShared (Some 3); RUpdate]%string /\
  rrun (fun t => t) both start h = Ok (s, e) /\ screen_text e = Some "Crunch"%string /\ to_show both h = "Bank 4"%string.
Proof. eexists _, _, _. split; [reflexivity|]. split; [vm_compute; reflexivity|]. split; reflexivity. Qed.
Print Assumptions C67_preselected_again_refuted.

(* Finding: a label which only shows the rig number keeps it when the device is lost. *)
Theorem C67_lost_refuted : exists h s e, h = [RLabel LInit; RId (Some 7); RId None] /\
  rrun (fun t => t) (mkRconf false IdBoth "PySwitch") start h = Ok (s, e) /\ screen_text e = Some "2-3"%string /\ to_show (mkRconf false IdBoth "PySwitch") h = ""%string.
Proof. eexists _, _, _. split; [reflexivity|]. split; [vm_compute; reflexivity|]. split; reflexivity. Qed.
Print Assumptions C67_lost_refuted.

Example C67_ex : exists s e, rrun (fun t => t) both start [RLabel LInit; RId (Some 7); RName (Some "Crunch"); RShared (Some 11); RUpdate; RShared None; RId (Some 58); RName None]%string = Ok (s, e) /\
  e = [DNew "" (Some WHITE) None; DText "2-3 PySwitch"; DText "2-3 Crunch"; DText "Bank 12"; DText "12-4 Crunch"; DText "12-4 PySwitch"]%string.
Proof. eexists _, _. split; [vm_compute; reflexivity|reflexivity]. Qed.
Example C67_ex_preselection : own [RLabel LInit; RUpdate] /\ ~ at_last_update [RLabel LInit; RUpdate] (Some 3).
Proof.
  split; [intros o [E|[E|[]]]; congruence|]. intros (k1 & k2 & E & _ & _ & K). destruct k1 as [|x [|y k1]]; [discriminate| |destruct k1; discriminate].
  injection E as <- _. discriminate.
Qed.

(* Labels bound to any other parameter: the converted value, else the value, else the default. *)
Theorem C67_parameter : forall (A : Type) (conv : option A -> option string) str v d,
  (forall t, conv v = Some t -> param_text conv str v d = t) /\
  (conv v = None -> forall x, v = Some x -> param_text conv str v d = str x) /\
  (conv v = None -> v = None -> param_text conv str v d = d).
Proof. intros A conv str v d. unfold param_text. repeat split; [intros t ->; reflexivity|intros -> x ->; reflexivity|intros -> ->; reflexivity]. Qed.
Print Assumptions C67_parameter.
