(* C85: the web editor loads files from the controller and saves files on it. If it makes one call after the other, and the connection is reliable, each call is settled with the
   right result; a file which has been saved is loaded as it was saved. Calls which are made at the same time are mixed up. *)
From Coq Require Import String.
From Verif.Lib Require Import Base.
From Verif.Model Require Import Midi Bridge Device.
From Verif.Spec Require Import Bridge Device.
From Verif.Proofs Require Import BridgeNet BridgeFifo Device.
From Verif.Props Require Import Bridge BridgeFifo.
Local Open Scope list_scope.

(* When all messages have arrived, every call is settled; a connection is never refused, and a save never fails *)
Theorem C85_settled_partial : forall files throws seed ops, proper files throws seed ops ->
  let calls := v_calls (d_dev (drun files throws seed ops)) in
  (arrived (d_net (drun files throws seed ops)) -> Forall (fun x => snd x <> None) calls) /\
  (forall k r, nth_error calls k = Some (CConnect, Some r) -> r = Connected) /\ (forall k path content r, nth_error calls k = Some (CSave path content, Some r) -> r = Saved).
Proof.
  intros files throws seed ops Hp calls. destruct (proper_inv files throws seed ops Hp) as [G [H [_ [A [B C]]]]]. split; [exact (all_settled files throws seed ops G H)|].
  split; [exact (connected files throws seed ops G H)|exact (only_saved files throws seed ops G H)].
Qed.
Print Assumptions C85_settled_partial.

(* What a load gives is the file as the controller had it at a time after the call was made, and before any later call; or the controller had no such file then *)
Theorem C85_load_partial : forall files throws seed ops, proper files throws seed ops ->
  forall k path r, nth_error (v_calls (d_dev (drun files throws seed ops))) k = Some (CLoad path, Some r) -> clean path -> path <> [] ->
  exists a now b, ops = a ++ DNext There now :: b /\ length (v_calls (d_dev (drun files throws seed a))) = S k /\
    match files There now path with
    | Some msg => exists data, r = Loaded data /\ ((forall j, clean (piece 100 msg j)) -> data = msg)
    | None => r = Failed (err_text NoFile)
    end.
Proof.
  intros files throws seed ops Hp k path r Hk Hc Hne. destruct (proper_inv files throws seed ops Hp) as [G [H [_ [A [B C]]]]].
  destruct (loaded files throws seed C ops G H k path r Hk Hc Hne) as [a [now [b [E [L [_ R]]]]]]. exists a, now, b. auto.
Qed.
Print Assumptions C85_load_partial.

(* When all messages have arrived, the controller has received exactly the files which were saved, in this order *)
Theorem C85_save_partial : forall files throws seed ops, proper files throws seed ops -> arrived (d_net (drun files throws seed ops)) ->
  let calls := v_calls (d_dev (drun files throws seed ops)) in
  (forall k path content r, nth_error calls k = Some (CSave path content, r) -> clean path /\ (forall j, clean (piece 65 content j))) ->
  obtained There (n_log (f_net (d_net (drun files throws seed ops)))) = flat_map (fun x => match fst x with CSave path content => [(path, content)] | _ => [] end) calls.
Proof.
  intros files throws seed ops Hp Arr calls Hcl. destruct (proper_inv files throws seed ops Hp) as [G [H [_ [A [B C]]]]]. rewrite (all_saved files throws seed ops G H Arr). fold calls. rewrite saved_fst.
  assert (forall x, In x calls -> match fst x with CSave path content => clean path /\ (forall j, clean (piece 65 content j)) | _ => True end) as Q.
  { intros [c r] Hin. apply In_nth_error in Hin. destruct Hin as [k Hk]. destruct c; cbn [fst]; auto. exact (Hcl _ _ _ _ Hk). }
  clear -Q. induction calls as [|[c r] l IH]; [reflexivity|]. cbn [map flat_map fst]. rewrite IH by (intros x Hx; apply Q; right; exact Hx). f_equal. specialize (Q (c, r) (or_introl eq_refl)). cbn [fst] in Q.
  destruct c; try reflexivity. destruct Q as [Q1 Q2]. cbn [saved_call]. rewrite (normal_clean path Q1), (joined_clean CHUNK_SEND content) by (try exact Q2; unfold CHUNK_SEND; lia). reflexivity.
Qed.
Print Assumptions C85_save_partial.

(* If the controller stores what it receives, then a file which was saved is loaded as it was saved, as long as it is not saved again in between *)
Theorem C85_roundtrip_partial : forall files throws seed disk ops, proper files throws seed ops -> stores files throws seed disk ops ->
  let calls := v_calls (d_dev (drun files throws seed ops)) in
  forall i k path content s r, (i < k)%nat -> nth_error calls i = Some (CSave path content, s) -> nth_error calls k = Some (CLoad path, Some r) ->
  (forall j p c t, (i < j < k)%nat -> nth_error calls j = Some (CSave p c, t) -> clean p /\ p <> path) ->
  clean path -> path <> [] -> plain content -> r = Loaded content.
Proof.
  intros files throws seed disk ops Hp Hst calls i k path content s r Hik Hi Hk Hn Cp Np Pc. destruct (proper_inv files throws seed ops Hp) as [G [H [_ [A [B C]]]]]. destruct Hp as [_ [_ P]].
  apply (roundtrip files throws seed A C P disk ops G i k path content s r H Hst Hik Hi Hk Hn Cp Np); intros j; apply plain_clean, plain_piece, Pc.
Qed.
Print Assumptions C85_roundtrip_partial.

(* For all histories, whatever happens on the connection: an error message which arrives while a file is being loaded or saved (the last call) makes this call fail with its text *)
Theorem C85_error_reported : forall files throws seed ops now old c text pre rest,
  v_calls (d_dev (drun files throws seed ops)) = old ++ [(c, None)] -> c <> CConnect ->
  since Here (n_log (f_net (d_net (drun files throws seed ops)))) (n_log (f_net (d_net (drun files throws seed (ops ++ [DNext Here now]))))) = pre ++ RecvError text :: rest -> Forall no_answer pre ->
  exists old', v_calls (d_dev (drun files throws seed (ops ++ [DNext Here now]))) = old' ++ [(c, Some (Failed text))].
Proof. exact error_reported. Qed.
Print Assumptions C85_error_reported.

(* Connecting again does nothing *)
Theorem C85_connect_again : forall files throws d now, v_on (d_dev d) = true -> dstep files throws d (DCall now CConnect) = d.
Proof. intros files throws [v f] now H. cbn [d_dev] in H. unfold dstep. cbn [d_dev d_net acts begin]. rewrite H. cbn [negb]. rewrite since_none. reflexivity. Qed.
Print Assumptions C85_connect_again.

(* Without a connection, loading and saving fail at once and nothing is sent *)
Theorem C85_offline : forall files throws d now c, v_on (d_dev d) = false -> c <> CConnect ->
  let d' := dstep files throws d (DCall now c) in
  d_net d' = d_net d /\ v_on (d_dev d') = false /\ v_calls (d_dev d') = v_calls (d_dev d) ++ [(c, Some (Failed (unit_codes "No controller connected")))].
Proof.
  intros files throws [v f] now c H N. cbn [d_dev] in H. unfold dstep. destruct c; [contradiction| |]; cbn [d_dev d_net acts begin]; rewrite H; rewrite since_none; repeat split.
Qed.
Print Assumptions C85_offline.

(* Two files are loaded at the same time: the second promise gets the first file, and the first promise is never settled *)
Definition two_files : side -> Z -> list Z -> option (list Z) := fun s _ p => match s with Here => None | There => if bytes_eqb p [97] then Some [65; 65] else if bytes_eqb p [98] then Some [66; 66] else None end.
Definition pump (l : list Z) : list dop := flat_map (fun k => [DNext There (10 * k); DNext There (10 * k + 1); DNext Here (10 * k + 2); DNext Here (10 * k + 3)]) l.
Definition at_once : list dop := [DCall 0 CConnect] ++ pump [1; 2; 3] ++ [DCall 40 (CLoad [97]); DCall 40 (CLoad [98])] ++ pump [5; 6; 7; 8].
Theorem C85_at_once_refuted : reliable two_files polite seeds (map fop_of at_once) /\ arrived (d_net (drun two_files polite seeds at_once)) /\
  v_calls (d_dev (drun two_files polite seeds at_once)) = [(CConnect, Some Connected); (CLoad [97], None); (CLoad [98], Some (Loaded [65; 65]))].
Proof.
  split; [split; [|split; [|split; [|split; [|split]]]]|split].
  - intros [|]; cbn; lia.
  - intros [|] now p msg; unfold two_files; [discriminate|]. destruct (bytes_eqb p [97]); [|destruct (bytes_eqb p [98])]; intros E; inversion E; reflexivity.
  - intros [|] now p; unfold two_files; [discriminate|]. destruct (bytes_eqb p [97]); [|destruct (bytes_eqb p [98])]; discriminate.
  - repeat (apply Forall_cons; [first [exact I|vm_compute; reflexivity]|]). apply Forall_nil.
  - vm_compute. repeat (split; [first [exact I|split; repeat (apply Forall_cons; [reflexivity|]); apply Forall_nil]|]). exact I.
  - intros [|]; vm_compute; discriminate.
  - intros [|]; vm_compute; reflexivity.
  - vm_compute. reflexivity.
Qed.
Print Assumptions C85_at_once_refuted.

(* An empty file is saved: nothing is sent, and the promise is never settled *)
Theorem C85_empty_refuted : forall n, let ops := [DCall 0 CConnect] ++ pump [1; 2; 3] ++ [DCall 40 (CSave [97] [])] ++ repeat (DNext Here 50) n in
  arrived (d_net (drun two_files polite seeds ops)) /\ v_calls (d_dev (drun two_files polite seeds ops)) = [(CConnect, Some Connected); (CSave [97] [], None)].
Proof.
  intros n ops. assert (drun two_files polite seeds ops = drun two_files polite seeds ([DCall 0 CConnect] ++ pump [1; 2; 3] ++ [DCall 40 (CSave [97] [])])) as ->.
  { unfold ops. rewrite !app_assoc. unfold drun. rewrite fold_left_app. set (d := fold_left (dstep two_files polite) (([DCall 0 CConnect] ++ pump [1; 2; 3]) ++ [DCall 40 (CSave [97] [])]) (dstart seeds)).
    assert (dstep two_files polite d (DNext Here 50) = d) as E by (vm_compute; reflexivity). clearbody d.
    induction n as [|n IH]; [reflexivity|]. cbn [repeat fold_left]. rewrite E. exact IH. }
  split; [intros [|]; vm_compute; reflexivity|vm_compute; reflexivity].
Qed.
Print Assumptions C85_empty_refuted.

(* A save is reported as done when its last part has been sent, although the controller has not received the file *)
Definition early : list dop := [DCall 0 CConnect] ++ pump [1; 2; 3] ++ [DCall 40 (CSave [97] [65; 66])].
Theorem C85_early_refuted : proper two_files polite seeds early /\ v_calls (d_dev (drun two_files polite seeds early)) = [(CConnect, Some Connected); (CSave [97] [65; 66], Some Saved)] /\
  obtained There (n_log (f_net (d_net (drun two_files polite seeds early)))) = [].
Proof.
  split; [split; [split; [|split; [|split; [|split; [|split]]]]|split]|split].
  - intros [|]; cbn; lia.
  - apply C85_at_once_refuted.
  - apply C85_at_once_refuted.
  - repeat (apply Forall_cons; [first [exact I|vm_compute; reflexivity]|]). apply Forall_nil.
  - vm_compute. repeat (split; [first [exact I|split; repeat (apply Forall_cons; [reflexivity|]); apply Forall_nil]|]). exact I.
  - intros [|]; vm_compute; discriminate.
  - vm_compute. repeat (split; [first [exact I|reflexivity|split; [reflexivity|split; [discriminate|]]; repeat (apply Forall_cons; [discriminate|]); apply Forall_nil]|]). exact I.
  - intros now. reflexivity.
  - vm_compute. reflexivity.
  - vm_compute. reflexivity.
Qed.
Print Assumptions C85_early_refuted.

(* A case: connect, save a file of 70 characters (two parts), load it, and load a file which does not exist *)
Definition text : list Z := repeat 97 70.
Definition disk : list Z -> option (list Z) := fun _ => None.
Definition store : side -> Z -> list Z -> option (list Z) := fun s now p => match s with Here => None | There => if 61 <=? now then after (disk p) p [(a_py, text)] else disk p end.
Definition session : list dop :=
  [DCall 0 CConnect] ++ pump [1; 2; 3] ++ [DCall 40 (CSave a_py text)] ++ pump [5; 6; 7] ++ [DCall 80 (CLoad a_py)] ++ pump [9; 10; 11] ++ [DCall 120 (CLoad [98])] ++ pump [13; 14; 15].
Lemma store_cases s now p : store s now p = None \/ store s now p = Some text.
Proof. unfold store, after, disk. destruct s; [auto|]. destruct (61 <=? now); [|auto]. cbn [fold_left fst snd]. destruct (bytes_eqb a_py p); auto. Qed.
Example ex_session : proper store polite seeds session /\ stores store polite seeds disk session /\ arrived (d_net (drun store polite seeds session)) /\
  v_calls (d_dev (drun store polite seeds session)) = [(CConnect, Some Connected); (CSave a_py text, Some Saved); (CLoad a_py, Some (Loaded text)); (CLoad [98], Some (Failed (err_text NoFile)))] /\
  obtained There (n_log (f_net (d_net (drun store polite seeds session)))) = [(a_py, text)] /\ plain text /\ clean a_py.
Proof.
  split; [split; [split; [|split; [|split; [|split; [|split]]]]|split]|split; [|split; [|split; [|split; [|split]]]]].
  - intros [|]; cbn; lia.
  - intros s now p msg E. destruct (store_cases s now p) as [Q|Q]; rewrite Q in E; inversion E. reflexivity.
  - intros s now p E. destruct (store_cases s now p) as [Q|Q]; rewrite Q in E; discriminate.
  - repeat (apply Forall_cons; [first [exact I|vm_compute; reflexivity]|]). apply Forall_nil.
  - vm_compute. repeat (split; [first [exact I|split; repeat (apply Forall_cons; [reflexivity|]); apply Forall_nil]|]). exact I.
  - intros [|]; vm_compute; discriminate.
  - vm_compute. repeat (split; [first [exact I|reflexivity|split; [reflexivity|split; [discriminate|]]; repeat (apply Forall_cons; [discriminate|]); apply Forall_nil]|]). exact I.
  - intros now. reflexivity.
  - intros a now b E p. let l := eval vm_compute in session in change session with l in E.
    repeat (destruct a as [|? a]; [first [discriminate E|apply (f_equal (hd (DNext Here 0))) in E; cbn [hd app] in E; injection E as <-; cbn [app]; vm_compute; reflexivity]|cbn [app] in E; first [discriminate E|apply (f_equal (@tl _)) in E as E'; apply (f_equal (hd (DNext Here 0))) in E; cbn [hd tl app] in E, E'; subst; rename E' into E]]).
  - intros [|]; vm_compute; reflexivity.
  - vm_compute. reflexivity.
  - vm_compute. reflexivity.
  - apply Forall_forall. intros u Hu. apply repeat_spec in Hu. subst u. lia.
  - apply plain_clean. repeat (apply Forall_cons; [lia|]). apply Forall_nil.
Qed.

(* Cases for the error: a file which does not exist is loaded; meanwhile another one is being saved *)
Definition missing (l : list call) : list dop := [DCall 0 CConnect] ++ pump [1; 2; 3] ++ map (DCall 40) l ++ [DNext There 50; DNext Here 51].
Example ex_error : forall l, l = [CLoad [98]] \/ l = [CLoad [98]; CSave a_py (repeat 97 140)] ->
  (exists old c, v_calls (d_dev (drun store polite seeds (missing l))) = old ++ [(c, None)] /\ c <> CConnect) /\
  exists pre rest, since Here (n_log (f_net (d_net (drun store polite seeds (missing l))))) (n_log (f_net (d_net (drun store polite seeds (missing l ++ [DNext Here 52]))))) = pre ++ RecvError (err_text NoFile) :: rest /\ Forall no_answer pre.
Proof.
  intros l [H|H]; subst l; (split; [|eexists [_; _], _; split; [vm_compute; reflexivity|repeat constructor]]).
  - exists [(CConnect, Some Connected)], (CLoad [98]). split; [vm_compute; reflexivity|discriminate].
  - exists [(CConnect, Some Connected); (CLoad [98], None)], (CSave a_py (repeat 97 140)). split; [vm_compute; reflexivity|discriminate].
Qed.
