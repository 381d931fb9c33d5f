(* C90: unsaved changes in the web editor. *)
From Coq Require Import String Lia.
From Verif.Lib Require Import Base.
From Verif.Model Require Import Session.
From Verif.Spec Require Import Session.
From Verif.Proofs Require Import Session.
Open Scope string_scope.
Local Open Scope list_scope.

(* If the configuration is not marked as changed, its code is kept somewhere exactly as it is. Partial: nothing is changed while a save is under way, see C90_race_refuted *)
Theorem C90_clean_partial : forall es, quiet es -> s_open (run es) <> None -> s_dirty (run es) = false -> kept (run es).
Proof. intros es Q. apply (inv es Q). Qed.
Print Assumptions C90_clean_partial.

(* A finished save has written the code of the open configuration to its place, both files, and there are no unsaved changes then. Partial as before, see C90_mix_refuted *)
Theorem C90_saved_partial : forall es k v i d, quiet es -> nth_error (s_saves (run es)) k = Some v -> v_inputs v = Some i -> v_display v = Some d ->
  let after := run (es ++ [ODone k]) in In (v_target v, current after) (s_log after) /\ s_dirty after = false /\ s_marker after = false /\ current after = current (run es).
Proof.
  intros es k v i d Q E I D after. subst after. rewrite run_snoc. pose proof (inv es Q) as [_ [HF [HN _]]]. set (s := run es) in *. clearbody s. cbn [step]. rewrite E, I, D. apply nth_error_In in E. rewrite Forall_forall in HF. destruct (HF v E) as [_ [B [F G]]]. pose proof (B _ I) as ->. pose proof (F _ D) as ->.
  assert (s_open s <> None) as O by (intros N; rewrite (HN N) in E; destruct E).
  destruct (finish_current (fst (current s)) (snd (current s)) v (with_saves (remove_nth k (s_saves s)) s)) as [Cu _]. rewrite Cu. change (current (with_saves (remove_nth k (s_saves s)) s)) with (current s).
  unfold finish. destruct G as [-> | ->]; cbn [s_id s_open with_marker with_log with_saves].
  - destruct (s_open s); [|congruence]. cbn. split; [left; destruct (current s); reflexivity|auto].
  - rewrite Nat.eqb_refl. cbn. split; [left; destruct (current s); reflexivity|auto].
Qed.
Print Assumptions C90_saved_partial.

(* Opening another configuration with the editor's menus: the user agrees, or nothing happens, or nothing is lost: the code is kept somewhere and the tabs show it.
   Partial: see C90_reload_refuted and C90_browser_refuted for other ways *)
Theorem C90_opening_partial : forall es p d answer, quiet es -> s_open (run es) <> None ->
  agreed (run es) (OOpen p d answer) \/ run (es ++ [OOpen p d answer]) = run es \/ (kept (run es) /\ forall f, fst (tab f (run es)) = file f (current (run es))).
Proof.
  intros es p d ans Q O. rewrite run_snoc. pose proof (tabs es O) as T. pose proof (C90_clean_partial es Q O) as K. set (s := run es) in *. clearbody s. unfold agreed. cbn [step].
  destruct (asks s) eqn:A; [destruct ans; [left; auto|right; left; reflexivity]|]. right. right. unfold asks in A. apply orb_false_iff in A. destruct A as [A B]. apply orb_false_iff in A. destruct A as [A C].
  split; [apply K; destruct (s_open s); [exact B|congruence]|]. intros f. apply T. destruct f; assumption.
Qed.
Print Assumptions C90_opening_partial.

(* If the user does not agree, nothing happens *)
Theorem C90_refused : forall es p d, asks (run es) = true -> run (es ++ [OOpen p d false]) = run es.
Proof. intros es p d A. rewrite run_snoc. cbn [step]. rewrite A. reflexivity. Qed.
Print Assumptions C90_refused.

(* A tab which is not marked shows the code of the open configuration, at all times *)
Theorem C90_tabs : forall es f, s_open (run es) <> None -> snd (tab f (run es)) = false -> fst (tab f (run es)) = file f (current (run es)).
Proof. intros es f O. apply tabs, O. Qed.
Print Assumptions C90_tabs.

(* What is typed into a tab becomes the code of this file if it is applied next, and the other file stays; saving and typing in the other tab may come between. Partial: see C90_tabs_refuted *)
Theorem C90_applied_partial : forall es f text between, s_open (run es) <> None -> forallb (leaves f) between = true ->
  tab f (run (es ++ OType f text :: between)) = (text, true)
  /\ current (run (es ++ OType f text :: between)) = current (run es)
  /\ let after := run (es ++ OType f text :: between ++ [OApply f]) in current after = (if f then (text, snd (current (run es))) else (fst (current (run es)), text)) /\ s_dirty after = true.
Proof.
  intros es f text between O L.
  assert (tab f (run (es ++ OType f text :: between)) = (text, true) /\ s_open (run (es ++ OType f text :: between)) <> None /\ current (run (es ++ OType f text :: between)) = current (run es)) as [T [P C]].
  { induction between as [|o between IH] using rev_ind.
    - rewrite run_snoc; cbn [step]; destruct (s_open (run es)) eqn:E; [|congruence]. destruct f; cbn; rewrite E; repeat split; discriminate.
    - rewrite forallb_app in L. apply andb_true_iff in L. destruct L as [L1 L2]. cbn in L2. rewrite andb_true_r in L2.
      replace (es ++ OType f text :: between ++ [o]) with ((es ++ OType f text :: between) ++ [o]) by (rewrite <- app_assoc; reflexivity). rewrite run_snoc, leaves_tab by exact L2. destruct (leaves_open f (run (es ++ OType f text :: between)) o L2) as [-> ->]. apply IH, L1. }
  split; [exact T|]. split; [exact C|]. replace (es ++ OType f text :: between ++ [OApply f]) with ((es ++ OType f text :: between) ++ [OApply f]) by (rewrite <- app_assoc; reflexivity). rewrite run_snoc, <- C. pose proof (ref _ P) as H. set (s := run (es ++ OType f text :: between)) in *. clearbody s. cbn [step]. destruct (s_open s); [|congruence].
  split; [|reflexivity]. unfold current at 1, object at 1. cbn [code_edit apply_config set_data write_object s_heap s_ref]. rewrite nth_replace_same by exact H. unfold tab in T. destruct f; rewrite T; reflexivity.
Qed.
Print Assumptions C90_applied_partial.

(* The mark for unsaved changes is right when no save is under way. Partial: nothing is changed during saving, and no save fails, see C90_marker_refuted *)
Theorem C90_marker_partial : forall es, quiet es -> no_failure es -> s_open (run es) <> None -> s_saves (run es) = [] -> s_marker (run es) = s_dirty (run es).
Proof. exact marker_inv. Qed.
Print Assumptions C90_marker_partial.

(* The full claims, without restrictions on what happens during saving, and for all ways to open configurations, are false *)
Theorem C90_race_refuted : ~ (forall es, s_open (run es) <> None -> s_dirty (run es) = false -> kept (run es)).
Proof.
  intros H. specialize (H [OOpen (PPreset "Live") (Some ("a", "b")) true; OGui ("c", "b"); OSave true PFolder; OPart 0; OGui ("d", "b"); ODone 0]). destruct H as [p H]; [vm_compute; discriminate|reflexivity|]. vm_compute in H. intuition discriminate.
Qed.
Print Assumptions C90_race_refuted.
(* Code which is applied while the configuration is being sent to the controller: there, inputs.py is the old one and display.py the new one *)
Theorem C90_mix_refuted : ~ (forall es p d, In (p, d) (s_log (run es)) -> exists before after, es = before ++ after /\ current (run before) = d).
Proof.
  intros H. set (es := [OOpen (PController "MIDICaptain") (Some ("a", "b")) true; OSave true PFolder; OPart 0; OUpload (Some "c") (Some "d"); OPart 0; ODone 0]). destruct (H es (PController "MIDICaptain") ("a", "d")) as [be [af [E C]]]; [vm_compute; auto|]. clear H.
  assert (exists n, be = firstn n es) as [n ->] by (exists (length be); rewrite E, firstn_app, Nat.sub_diag, firstn_all, app_nil_r; reflexivity). clear E.
  do 7 (destruct n as [|n]; [vm_compute in C; discriminate C|]). vm_compute in C. discriminate C.
Qed.
Print Assumptions C90_mix_refuted.
Theorem C90_reload_refuted : ~ (forall es d, quiet es -> s_open (run es) <> None -> run (es ++ [OReload d]) = run es \/ kept (run es)).
Proof.
  intros H. destruct (H [OOpen PFolder (Some ("a", "b")) true; OGui ("c", "b")] (Some ("x", "b"))) as [W|[p W]]; [|vm_compute; discriminate|vm_compute in W; discriminate W|vm_compute in W; intuition discriminate].
  intros be o af E C. destruct be as [|x be]; [reflexivity|]. cbn in E. injection E as <- E. destruct be as [|y be]; [reflexivity|]. injection E as <- E. destruct be; discriminate E.
Qed.
Print Assumptions C90_reload_refuted.
Theorem C90_browser_refuted : ~ (forall es p d, quiet es -> s_open (run es) <> None -> run (es ++ [OBrowser p d]) = run es \/ kept (run es)).
Proof.
  intros H. destruct (H [OOpen PFolder (Some ("a", "b")) true; OGui ("c", "b")] (PPreset "Live") (Some ("x", "b"))) as [W|[p W]]; [|vm_compute; discriminate|vm_compute in W; discriminate W|vm_compute in W; intuition discriminate].
  intros be o af E C. destruct be as [|x be]; [reflexivity|]. cbn in E. injection E as <- E. destruct be as [|y be]; [reflexivity|]. injection E as <- E. destruct be; discriminate E.
Qed.
Print Assumptions C90_browser_refuted.
(* What is typed in one tab is lost when the other one is applied *)
Theorem C90_tabs_refuted : ~ (forall es f text, s_open (run es) <> None -> fst (tab f (run (es ++ [OType f text; OApply (negb f)]))) = text).
Proof. intros H. specialize (H [OOpen PFolder (Some ("a", "b")) true] true "new code"). assert (s_open (run [OOpen PFolder (Some ("a", "b")) true]) <> None) as O by discriminate. specialize (H O). vm_compute in H. discriminate H. Qed.
Print Assumptions C90_tabs_refuted.
(* A save to another place which fails leaves the mark *)
Theorem C90_marker_refuted : ~ (forall es, quiet es -> s_open (run es) <> None -> s_saves (run es) = [] -> s_marker (run es) = s_dirty (run es)).
Proof.
  intros H. specialize (H [OOpen PFolder (Some ("a", "b")) true; OSave false (PController "MIDICaptain"); OFail 0]).
  assert (quiet [OOpen PFolder (Some ("a", "b")) true; OSave false (PController "MIDICaptain"); OFail 0]) as Q.
  { intros be o af E C. destruct be as [|? be]; [reflexivity|]. cbn in E. injection E as _ E. destruct be as [|? be]; [injection E as <- _; discriminate C|]. injection E as _ E. destruct be as [|? be]; [injection E as <- _; discriminate C|]. injection E as _ E. destruct be; discriminate E. }
  assert (true = false) as W; [apply H; [exact Q|discriminate|reflexivity]|discriminate W].
Qed.
Print Assumptions C90_marker_refuted.

(* A preset is changed and saved, then copied to the controller, changed again, and another one is not opened because the user does not agree *)
Example ex_session :
  let es := [OOpen (PPreset "Live") (Some ("a", "b")) true; OType true "c"; OApply true; OSave true PFolder; OPart 0; ODone 0; OSave false (PController "MIDICaptain"); OPart 0; OPart 0; ODone 0; OGui ("c", "d"); OOpen (PPreset "Studio") (Some ("x", "y")) false] in
  current (run es) = ("c", "d") /\ s_dirty (run es) = true /\ s_log (run es) = [(PController "MIDICaptain", ("c", "b")); (PPreset "Live", ("c", "b")); (PPreset "Live", ("a", "b"))] /\ quiet es.
Proof.
  split; [reflexivity|]. split; [reflexivity|]. split; [reflexivity|]. intros be o af E C.
  do 12 (destruct be as [|? be]; [injection E as <- _; first [reflexivity|discriminate C]|injection E as <- E]). destruct be; discriminate E.
Qed.
