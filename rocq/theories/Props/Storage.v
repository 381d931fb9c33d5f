(* C87, C88: what the web editor keeps in the browser: presets, and the settings of the emulator. *)
From Coq Require Import String QArith.
From Verif.Lib Require Import Base.
From Verif.Model Require Import Storage.
From Verif.Spec Require Import Storage.
From Verif.Proofs Require Import Storage Settings.
Open Scope string_scope.
Open Scope Z_scope.
Local Open Scope list_scope.

(* ---- C87 ---- *)

(* After any history, saving the preset which is open, or saving over one after confirming it, makes the preset hold exactly the code given *)
Theorem C87_saved : forall ops id inputs display, holds (urun (ops ++ [USave id inputs display])) id (code inputs display) /\ holds (urun (ops ++ [UOverwrite id true inputs display])) id (code inputs display).
Proof.
  intros ops id a b. rewrite !urun_snoc. cbn [ustep]. unfold holds. rewrite ids_set, get_set, String.eqb_refl. auto.
Qed.
Print Assumptions C87_saved.

(* Saving as a new preset: the first name entered which is not taken gets the code; it was no preset before. If the dialog is cancelled, or left without a name, nothing at all is changed *)
Theorem C87_new : forall ops answers inputs display,
  (exists taken n rest, answers = map Some taken ++ Some n :: rest /\ n <> "" /\ (forall m, In m taken -> In m (preset_ids (urun ops))) /\ preset_has n (urun ops) = false
    /\ holds (urun (ops ++ [UNew answers inputs display])) n (code inputs display)
    /\ (forall m, m <> n -> preset_get m (urun (ops ++ [UNew answers inputs display])) = preset_get m (urun ops) /\ (In m (preset_ids (urun (ops ++ [UNew answers inputs display]))) <-> In m (preset_ids (urun ops)))))
  \/ (urun (ops ++ [UNew answers inputs display]) = urun ops
    /\ exists taken rest, answers = map Some taken ++ rest /\ (forall m, In m taken -> In m (preset_ids (urun ops))) /\ (rest = [] \/ hd None rest = None \/ hd None rest = Some "")).
Proof.
  assert (forall st m, preset_has m st = true -> In m (preset_ids st)) as T.
  { intros st m H. destruct (in_dec string_dec m (preset_ids st)) as [|N]; [assumption|]. unfold preset_has in H. rewrite absent in H by exact N. discriminate H. }
  intros ops answers a b. rewrite urun_snoc. cbn [ustep]. destruct (new_name answers (urun ops)) as [n|] eqn:E.
  - left. apply new_name_in in E. destruct E as [be [af [-> [A [B C]]]]]. exists be, n, af. split; [reflexivity|]. split; [exact A|]. rewrite Forall_forall in B. split; [intros m Hm; apply T, B, Hm|]. split; [exact C|].
    split; [unfold holds; rewrite ids_set, get_set, String.eqb_refl; auto|]. intros m N. rewrite ids_set, get_set. destruct (String.eqb_spec m n); [congruence|]. intuition congruence.
  - right. split; [reflexivity|]. apply new_name_none in E. destruct E as [be [af [-> [B C]]]]. exists be, af. rewrite Forall_forall in B. split; [reflexivity|]. split; [intros m Hm; apply T, B, Hm|exact C].
Qed.
Print Assumptions C87_new.

(* A confirmed deletion removes the preset; it is then neither listed nor read *)
Theorem C87_deleted : forall ops id, lacks (urun (ops ++ [UDelete id true])) id /\ urun (ops ++ [UDelete id false]) = urun ops.
Proof. intros ops id. rewrite !urun_snoc. cbn [ustep]. split; [|reflexivity]. unfold lacks. rewrite ids_delete, get_delete, String.eqb_refl. split; [tauto|reflexivity]. Qed.
Print Assumptions C87_deleted.

(* Renaming moves the content to the new name, and the old name is gone. Partial: a preset which has the new name already is lost without being asked, see C87_rename_refuted *)
Theorem C87_renamed_partial : forall ops id n, n <> "" ->
  holds (urun (ops ++ [URename id (Some n)])) n (preset_get id (urun ops)) /\ (n <> id -> lacks (urun (ops ++ [URename id (Some n)])) id) /\ urun (ops ++ [URename id None]) = urun ops /\ urun (ops ++ [URename id (Some "")]) = urun ops.
Proof.
  intros ops id n N. rewrite !urun_snoc. cbn [ustep]. destruct (String.eqb_spec n ""); [congruence|]. change (String.eqb "" "") with true. unfold holds, lacks. rewrite !ids_set, !get_set, String.eqb_refl, !ids_delete, get_delete, String.eqb_refl. split; [auto|]. split; [|auto]. intros M. split; [intros [[_ Q]|Q]; congruence|]. destruct (String.eqb_spec id n); [congruence|reflexivity].
Qed.
Print Assumptions C87_renamed_partial.

(* A preset is changed only by operations about it *)
Theorem C87_unchanged : forall ops o id, ~ names o id ->
  preset_get id (urun (ops ++ [o])) = preset_get id (urun ops) /\ (In id (preset_ids (urun (ops ++ [o]))) <-> In id (preset_ids (urun ops))).
Proof. intros ops o id N. rewrite urun_snoc. apply step_unchanged, N. Qed.
Print Assumptions C87_unchanged.

(* ... so a preset which was saved comes back as it was, whatever the user does with other presets and settings meanwhile, in whatever version of the editor *)
Theorem C87_back : forall ops id inputs display later, (forall o, In o later -> ~ names o id) -> holds (urun (ops ++ USave id inputs display :: later)) id (code inputs display).
Proof.
  intros ops id a b later H. replace (ops ++ USave id a b :: later) with ((ops ++ [USave id a b]) ++ later) by (rewrite <- app_assoc; reflexivity). destruct (keeps (ops ++ [USave id a b]) later id H) as [A B].
  destruct (C87_saved ops id a b) as [[C D] _]. split; [apply B, C|rewrite A; exact D].
Qed.
Print Assumptions C87_back.

(* No preset is listed twice, and what can be read is listed *)
Theorem C87_once : forall ops, NoDup (preset_ids (urun ops)) /\ forall id, ~ In id (preset_ids (urun ops)) -> lacks (urun ops) id.
Proof. intros ops. split; [apply once|]. intros id N. split; [exact N|apply absent, N]. Qed.
Print Assumptions C87_once.

(* Presets and the settings of any version of the editor do not get in each other's way *)
Theorem C87_apart : forall ops o version id key,
  (~ is_setting o -> local_get (local_id (Some version) id) key (urun (ops ++ [o])) = local_get (local_id (Some version) id) key (urun ops)) /\ (is_setting o -> presets (urun (ops ++ [o])) = presets (urun ops)).
Proof.
  intros ops o v i k. rewrite urun_snoc. split; [apply settings_apart|]. destruct o as [| | | | |v' i' k' x]; intros []. apply presets_setting.
Qed.
Print Assumptions C87_apart.

(* The full claim would be that no preset is lost unless the user confirms it. Renaming a preset to the name of another one loses the other one *)
Theorem C87_rename_refuted : ~ (forall ops id n m, m <> id -> In m (preset_ids (urun ops)) -> preset_get m (urun (ops ++ [URename id (Some n)])) = preset_get m (urun ops)).
Proof.
  intros H. specialize (H [USave "Live" "a" "b"; USave "Studio" "c" "d"] "Live" "Studio" "Studio"). assert ("Studio" <> "Live") as N by discriminate. specialize (H N). vm_compute in H. specialize (H (or_intror (or_introl eq_refl))). discriminate H.
Qed.
Print Assumptions C87_rename_refuted.

(* Four presets, one of them asked for with two names which are taken, one renamed, one deleted, and a setting in between *)
Example ex_presets :
  let ops := [UNew [Some "Live"] "i1" "d1"; UNew [Some "Live"; Some "Studio"] "i2" "d2"; USetting "2.4" "global-settings" "x" (JNum 3); UNew [Some "Live"; Some "Studio"; Some "Home"] "i3" "d3"; URename "Studio" (Some "Big Studio"); UDelete "Live" true; USave "Home" "i4" "d4"] in
  preset_ids (urun ops) = ["Big Studio"; "Home"] /\ preset_get "Big Studio" (urun ops) = code "i2" "d2" /\ preset_get "Home" (urun ops) = code "i4" "d4" /\ local_get (local_id (Some "2.4") "global-settings") "x" (urun ops) = JNum 3.
Proof. vm_compute. repeat split; reflexivity. Qed.

(* ---- C88 ---- *)

(* What is entered last is shown; resetting gives the defaults; nothing else changes *)
Theorem C88_shown : forall version ops o p, proper version o -> In p options ->
  let before := shown version (srun version ops) p in let after := shown version (srun version (ops ++ [o])) p in
  match o with
  | SNumber n (Some q) => (p = n -> In n numbers -> after = JNum q) /\ (p <> n -> after = before)
  | SCheck n b => (p = n -> In n checkboxes -> after = JBool b) /\ (p <> n -> after = before)
  | SReset => field p defaults = Some after
  | _ => after = before
  end.
Proof.
  intros v ops o p P Hp before after. subst before after. rewrite srun_snoc, shown_step by exact P. destruct o as [n [q|]|n b| |u]; try reflexivity.
  - split; [intros -> H; apply mem_in in H; rewrite H, String.eqb_refl; reflexivity|]. intros N. destruct (String.eqb_spec p n); [congruence|reflexivity].
  - split; [intros -> H; apply mem_in in H; rewrite H, String.eqb_refl; reflexivity|]. intros N. destruct (String.eqb_spec p n); [congruence|reflexivity].
  - unfold get_attribute. cbn [field]. destruct (options_defaults p Hp) as [d ->]. reflexivity.
Qed.
Print Assumptions C88_shown.

(* A controller which is given the downloaded config.py behaves as the emulator in the browser does, and both as the dialog shows. Partial: debugStatsInterval is left out of the second
   part and may not be set to 2000, and number fields may not be emptied; see C88_interval_refuted and C88_empty_refuted *)
Theorem C88_same_partial : forall version ops, Forall (proper version) ops ->
  exists config, downloaded version (srun version ops) = Some config
    /\ (forall p, In p options -> p <> "debugStatsInterval" -> same (firmware config p) (emulated version (srun version ops) p) /\ emulated version (srun version ops) p = shown version (srun version ops) p)
    /\ ((forall q, In (SNumber "debugStatsInterval" (Some q)) ops -> ~ (q == 2000)%Q) -> same (firmware config "debugStatsInterval") (emulated version (srun version ops) "debugStatsInterval"))
    /\ field "enableMidiBridge" config = Some (JBool true).
Proof.
  intros v ops P. pose proof (good v ops P) as G. eexists. split; [apply rendered, G|]. split; [|split].
  - intros p Hp N. unfold emulated, shown. rewrite (fw_emulator (config_get v (srun v ops)) _ Hp N). split; [apply fw_download; assumption|reflexivity].
  - intros H. apply fw_interval; [exact G|]. intros q E. apply H. clear H G. revert q E. induction ops as [|ops o IH] using rev_ind_snoc; intros q E; [discriminate E|].
    apply Forall_app in P. destruct P as [P Po]. inversion Po; subst. rewrite srun_snoc in E. apply in_or_app. destruct o as [n [r|]|n b| |u]; cbn [sstep] in E.
    + destruct (existsb (String.eqb n) numbers) eqn:M; [|left; auto]. unfold set_attribute in E. rewrite config_get_set, field_put in E. destruct (String.eqb_spec "debugStatsInterval" n) as [<-|N]; [injection E as <-; right; left; reflexivity|left; auto].
    + destruct H1.
    + destruct (existsb (String.eqb n) checkboxes) eqn:M; [|left; auto]. unfold set_attribute in E. rewrite config_get_set, field_put in E. destruct (String.eqb_spec "debugStatsInterval" n) as [<-|N]; [discriminate E|left; auto].
    + rewrite config_get_set in E. discriminate E.
    + rewrite config_other in E by assumption. left. auto.
  - apply bridge_entry.
Qed.
Print Assumptions C88_same_partial.

(* The full claim: every option, every input. The editor takes 2000 for the default of debugStatsInterval, so that the downloaded file leaves it out when it is set to 2000; the firmware's default is the update interval *)
Theorem C88_interval_refuted : ~ (forall version ops config, Forall (proper version) ops -> downloaded version (srun version ops) = Some config -> same (firmware config "debugStatsInterval") (emulated version (srun version ops) "debugStatsInterval")).
Proof.
  intros H. specialize (H "2.4" [SNumber "debugStatsInterval" (Some 2000%Q)]). set (e := downloaded _ _) in H. vm_compute in e. subst e. assert (Forall (proper "2.4") [SNumber "debugStatsInterval" (Some 2000%Q)]) as P by (repeat constructor). specialize (H _ P eq_refl). vm_compute in H. discriminate H.
Qed.
Print Assumptions C88_interval_refuted.
(* ... and as long as it is not set, the dialog shows 2000 although 200 is used *)
Theorem C88_interval_shown_refuted : ~ (forall version ops, Forall (proper version) ops -> same (emulated version (srun version ops) "debugStatsInterval") (shown version (srun version ops) "debugStatsInterval")).
Proof. intros H. specialize (H "2.4" [] (Forall_nil _)). vm_compute in H. discriminate H. Qed.
Print Assumptions C88_interval_shown_refuted.
(* A number field which is emptied makes the downloaded config.py invalid *)
Theorem C88_empty_refuted : ~ (forall version ops, exists config, downloaded version (srun version ops) = Some config).
Proof. intros H. destruct (H "2.4" [SNumber "updateInterval" None]) as [c E]. vm_compute in E. discriminate E. Qed.
Print Assumptions C88_empty_refuted.

(* Some options set, one of them back to its default, a preset saved between *)
Example ex_settings :
  let ops := [SNumber "updateInterval" (Some 100%Q); SCheck "exploreMode" true; SNumber "ledBrightnessOn" (Some (5 # 10)); SOther (USave "Live" "a" "b"); SNumber "ledBrightnessOn" (Some (6 # 20)); SCheck "clearBuffers" false] in
  Forall (proper "2.4") ops /\ downloaded "2.4" (srun "2.4" ops) = Some [("clearBuffers", JBool false); ("updateInterval", JNum 100); ("enableMidiBridge", JBool true); ("exploreMode", JBool true)]
    /\ shown "2.4" (srun "2.4" ops) "updateInterval" = JNum 100 /\ preset_ids (srun "2.4" ops) = ["Live"].
Proof. split; [repeat constructor|]. vm_compute. repeat split; reflexivity. Qed.
