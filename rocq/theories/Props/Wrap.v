(* C107: lines of a text. *)
From Coq Require Import String Ascii.
From Verif.Lib Require Import Base.
From Verif.Model Require Import Wrap.
From Verif.Spec Require Import Wrap.
Local Open Scope list_scope.

Lemma blank_sep c : blank c = true <-> separator c.
Proof.
  unfold blank, separator. rewrite orb_true_iff, !andb_true_iff, !Nat.leb_le. tauto.
Qed.
Lemma sapp_assoc a b c : ((a ++ b) ++ c)%string = (a ++ b ++ c)%string.
Proof. induction a as [|x a IH]; cbn; [reflexivity|]. rewrite IH. reflexivity. Qed.
Lemma sapp_nil a : (a ++ "")%string = a.
Proof. induction a as [|x a IH]; cbn; [reflexivity|]. rewrite IH. reflexivity. Qed.
Lemma sapp_cons_nonempty w c : (w ++ String c "")%string <> ""%string.
Proof. destruct w; discriminate. Qed.
Lemma all_app P a b : all P (a ++ b)%string <-> all P a /\ all P b.
Proof. induction a as [|x a IH]; cbn; [tauto|]. rewrite IH. tauto. Qed.

Lemma reads_app a b wa wb c : separator c -> reads a wa -> reads b wb -> reads (a ++ String c b)%string (wa ++ wb).
Proof.
  intros SC RA RB. induction RA as [|d s ws SD R IH|w s ws W E R IH]; cbn [append app].
  - constructor; assumption.
  - constructor; assumption.
  - rewrite sapp_assoc. constructor; [exact W| |exact IH]. right. destruct E as [->|(d & r & -> & SD)]; cbn; eauto.
Qed.
Lemma reads_one w : word w -> reads w [w].
Proof. intros W. rewrite <- (sapp_nil w) at 1. constructor; auto. constructor. Qed.

Lemma reads_empty ws : reads "" ws -> ws = [].
Proof.
  intros R. remember ""%string as e eqn:E. destruct R as [|c s ws SC R|w s ws [NE W] E' R]; [reflexivity|discriminate|]. destruct w; [congruence|discriminate].
Qed.
(* split() finds the words *)
Lemma split_run w : forall s v, all (fun c => ~ separator c) w -> split (w ++ s) v = split s (v ++ w).
Proof.
  induction w as [|c w IH]; intros s v A; cbn [append]; [rewrite sapp_nil; reflexivity|]. destruct A as [NC A]. cbn [split].
  destruct (blank c) eqn:B; [apply blank_sep in B; contradiction|]. rewrite IH by exact A. rewrite sapp_assoc. reflexivity.
Qed.
Lemma split_reads s ws : reads s ws -> split s "" = ws.
Proof.
  induction 1 as [|c s ws SC R IH|w s ws [NE W] E R IH].
  - reflexivity.
  - cbn [split]. apply blank_sep in SC. rewrite SC. exact IH.
  - rewrite split_run by exact W. cbn [append]. destruct E as [->|(c & r & -> & SC)].
    + apply reads_empty in R. subst ws. cbn. destruct (String.eqb_spec w ""); [contradiction|reflexivity].
    + cbn [split]. apply blank_sep in SC. rewrite SC. destruct (String.eqb_spec w ""); [contradiction|]. f_equal. rewrite <- IH. cbn [split]. rewrite SC. reflexivity.
Qed.
(* Every text consists of words *)
Lemma split_total s : forall v, all (fun c => ~ separator c) v -> exists ws, reads (v ++ s)%string ws.
Proof.
  induction s as [|c s IH]; intros v A.
  - rewrite sapp_nil. destruct v as [|x v]; [eexists; constructor|]. eexists. apply reads_one. split; [discriminate|exact A].
  - destruct (blank c) eqn:B.
    + apply blank_sep in B. destruct (IH ""%string I) as (ws & R). cbn [append] in R.
      destruct v as [|x v]; [eexists; constructor; eassumption|]. exists ((String x v) :: ws). constructor; [split; [discriminate|exact A]| |constructor; assumption]. right. eauto.
    + destruct (IH (v ++ String c "")%string) as (ws & R).
      * apply all_app. split; [exact A|]. cbn. split; [|exact I]. intros S. apply blank_sep in S. congruence.
      * rewrite sapp_assoc in R. eauto.
Qed.
Lemma reads_words s ws : reads s ws -> Forall word ws.
Proof. induction 1; auto. Qed.

Section Width.
Variable width : string -> Z.
Variable max_width : Z.
Lemma newline_sep : separator newline.
Proof. unfold separator. left. vm_compute. lia. Qed.
Lemma space_sep : separator " ".
Proof. unfold separator. right. vm_compute. lia. Qed.
(* Lines with their words *)
Lemma join_reads l : forall ws, Forall2 reads l ws -> reads (join l) (concat ws).
Proof.
  induction l as [|x l IH]; intros ws F; inversion F as [|? wx ? wr RX FR]; subst; [constructor|]. cbn [concat]. destruct l as [|z l].
  - inversion FR; subst. cbn [concat]. rewrite List.app_nil_r. assumption.
  - change (join (x :: z :: l)) with (x ++ String newline (join (z :: l)))%string. apply reads_app; [apply newline_sep|assumption|]. apply IH. assumption.
Qed.

(* What holds of the lines *)
Definition good (L : list string) : Prop :=
  (forall l ws, In l L -> reads l ws -> (1 < length ws)%nat -> width l <= max_width) /\
  (forall i l m, nth_error L i = Some l -> nth_error L (S i) = Some m -> exists w ws, reads m (w :: ws) /\ max_width < width (l ++ " " ++ w)%string) /\
  (forall l, In l (tl L) -> exists w ws, reads l (w :: ws)).
Lemma reads_fun s a b : reads s a -> reads s b -> a = b.
Proof. intros A B. apply split_reads in A, B. congruence. Qed.
Lemma reads_more line wl w : reads line wl -> word w -> reads (line ++ " " ++ w)%string (wl ++ [w]).
Proof. intros R W. apply (reads_app line w wl [w] " "%char space_sep R). apply reads_one. exact W. Qed.
Lemma loop ws : Forall word ws -> exists out line wout wl, fold_left (step width max_width) ws ([], ""%string) = (out, line) /\
  Forall2 reads out wout /\ reads line wl /\ concat wout ++ wl = ws /\ good (out ++ [line]) /\ (ws = [] -> out = [] /\ line = ""%string) /\ (ws <> [] -> wl <> []).
Proof.
  induction ws as [|w ws IH] using rev_ind; intros F.
  { exists [], ""%string, [], []. split; [reflexivity|]. split; [constructor|]. split; [constructor|]. split; [reflexivity|]. split; [|split; [auto|congruence]].
    split; [|split]. - intros l ws [<-|[]] R. apply reads_empty in R. subst. cbn. lia. - intros [|[|i]] l m H1 H2; cbn in *; discriminate. - intros l []. }
  apply Forall_app in F. destruct F as [F W]. inversion W as [|? ? W1 _]; subst. destruct (IH F) as (out & line & wout & wl & E & RO & RL & C & (G1 & G2 & G3) & N & NE).
  rewrite fold_left_app, E. cbn [fold_left step]. destruct (max_width <? width (line ++ " " ++ w)%string) eqn:M.
  - apply Z.ltb_lt in M. exists (out ++ [line]), w, (wout ++ [wl]), [w]. split; [reflexivity|]. split; [apply Forall2_app; auto|]. split; [apply reads_one; assumption|].
    split; [rewrite concat_app; cbn; rewrite List.app_nil_r, C; reflexivity|]. split; [|split; [destruct ws; discriminate|discriminate]].
    split; [|split].
    + intros l lw I R L. apply in_app_or in I. destruct I as [I|[<-|[]]]; [eauto|]. rewrite (reads_fun _ _ _ R (reads_one _ W1)) in L. cbn in L. lia.
    + intros i l m H1 H2. set (L := out ++ [line]) in *. assert (LL : length L = S (length out)) by (unfold L; rewrite app_length; cbn; lia).
      destruct (Nat.lt_ge_cases (S i) (length L)) as [K|K].
      * rewrite nth_error_app1 in H1, H2 by lia. eauto.
      * assert (J : (S i < length (L ++ [w]))%nat) by (apply nth_error_Some; congruence). rewrite app_length in J. cbn in J.
        assert (SI : (S i = length L)%nat) by lia. rewrite nth_error_app1 in H1 by lia. rewrite nth_error_app2 in H2 by lia. rewrite SI, Nat.sub_diag in H2. injection H2 as <-.
        unfold L in H1. rewrite nth_error_app2 in H1 by lia. replace (i - length out)%nat with 0%nat in H1 by lia. injection H1 as <-.
        exists w, []. split; [apply reads_one; exact W1|exact M].
    + intros l I. destruct out as [|o out]; cbn [app tl] in *.
      * destruct I as [<-|[]]. exists w, []. apply reads_one; exact W1.
      * apply in_app_or in I. destruct I as [I|[<-|[]]]; [eauto|]. exists w, []. apply reads_one; exact W1.
  - apply Z.ltb_ge in M. exists out, (line ++ " " ++ w)%string, wout, (wl ++ [w]). split; [reflexivity|]. split; [exact RO|].
    pose proof (reads_more _ _ _ RL W1) as RT. split; [exact RT|].
    split; [rewrite List.app_assoc, C; reflexivity|]. split; [|split; [destruct ws; discriminate|intros _; destruct wl; discriminate]].
    assert (NW : out <> [] -> wl <> []). { intros O. apply NE. intros Q. destruct (N Q). contradiction. }
    split; [|split].
    + intros l lw I R L. apply in_app_or in I. destruct I as [I|[<-|[]]]; [eapply G1; eauto; apply in_or_app; auto|]. exact M.
    + intros i l m H1 H2. destruct (Nat.lt_ge_cases (S i) (length out)) as [K|K].
      * rewrite nth_error_app1 in H1, H2 by lia. apply (G2 i); rewrite nth_error_app1 by lia; assumption.
      * assert (J : (S i < length (out ++ [(line ++ " " ++ w)%string]))%nat) by (apply nth_error_Some; congruence). rewrite app_length in J. cbn in J.
        assert (SI : (S i = length out)%nat) by lia. rewrite nth_error_app1 in H1 by lia. rewrite nth_error_app2 in H2 by lia. rewrite SI, Nat.sub_diag in H2. injection H2 as <-.
        destruct (G2 i l line) as (w0 & ws0 & R0 & B0).
        { rewrite nth_error_app1 by lia. exact H1. } { rewrite nth_error_app2 by lia. rewrite SI, Nat.sub_diag. reflexivity. }
        exists w0, (ws0 ++ [w]). split; [|exact B0]. exact (reads_more _ _ _ R0 W1).
    + intros l I. destruct out as [|o out]; cbn [app tl] in *; [destruct I|]. apply in_app_or in I. destruct I as [I|[<-|[]]].
      * apply G3. apply in_or_app; auto.
      * destruct wl as [|w0 ws0]; [exfalso; apply NW; [discriminate|reflexivity]|]. exists w0, (ws0 ++ [w]). exact RT.
Qed.
Lemma wrap_lines s ws : reads s ws -> exists wss, Forall2 reads (wrap width max_width s) wss /\ concat wss = ws /\ good (wrap width max_width s).
Proof.
  intros R. unfold wrap, wrap_words. rewrite (split_reads _ _ R). destruct (loop ws (reads_words _ _ R)) as (out & line & wout & wl & E & RO & RL & C & G & N & NE).
  rewrite E. destruct (String.eqb_spec line "") as [->|L].
  - apply reads_empty in RL. subst wl. rewrite List.app_nil_r in C. destruct ws as [|w ws].
    + destruct (N eq_refl) as [-> _]. exists []. split; [constructor|]. split; [reflexivity|]. split; [intros l ? []|]. split; [intros [|i] ? ? H; discriminate|intros ? []].
    + exfalso. apply NE; [discriminate|reflexivity].
  - exists (wout ++ [wl]). split; [apply Forall2_app; auto|]. split; [|exact G]. rewrite concat_app. cbn. rewrite List.app_nil_r. exact C.
Qed.
End Width.

(* Every text consists of words. *)
Theorem C107_text : forall s, exists ws, reads s ws.
Proof. intros s. exact (split_total s "" I). Qed.
Print Assumptions C107_text.

(* Breaking a text into lines keeps its words and their order. *)
Theorem C107_words : forall width max_width s ws, reads s ws -> reads (wrap_text width max_width s) ws.
Proof.
  intros width max_width s ws R. destruct (wrap_lines width max_width s ws R) as (wss & F & C & _). rewrite <- C. apply join_reads. exact F.
Qed.
Print Assumptions C107_words.

(* A line fits, if it consists of more than one word. *)
Theorem C107_fits : forall width max_width s l ws, In l (wrap width max_width s) -> reads l ws -> (1 < length ws)%nat -> width l <= max_width.
Proof.
  intros width max_width s l ws I R L. destruct (C107_text s) as (v & V). destruct (wrap_lines width max_width s v V) as (wss & _ & _ & G & _). eauto.
Qed.
Print Assumptions C107_fits.

(* A line is only broken if the next word does not fit into it, and every line but the first begins with a word. *)
Theorem C107_break : forall width max_width s i l m, nth_error (wrap width max_width s) i = Some l -> nth_error (wrap width max_width s) (S i) = Some m ->
  exists w ws, reads m (w :: ws) /\ max_width < width (l ++ " " ++ w)%string.
Proof.
  intros width max_width s i l m H1 H2. destruct (C107_text s) as (v & V). destruct (wrap_lines width max_width s v V) as (wss & _ & _ & _ & G & _). eauto.
Qed.
Print Assumptions C107_break.

(* A measure: all characters have the same width *)
Definition fixed (s : string) : Z := Z.of_nat (String.length s).

(* Finding: the first line begins with a space, so that a text which would fit is broken, and centered texts are not centered. *)
Theorem C107_space_refuted : wrap fixed 9 "Rig Boost" = [" Rig"; "Boost"]%string /\ fixed "Rig Boost" = 9 /\ wrap fixed 20 "Rig Boost" = [" Rig Boost"]%string.
Proof. vm_compute. auto. Qed.
Print Assumptions C107_space_refuted.

(* Finding: if the first word does not fit, the text begins with an empty line. *)
Theorem C107_empty_refuted : wrap fixed 5 "Transpose" = [""; "Transpose"]%string.
Proof. reflexivity. Qed.
Print Assumptions C107_empty_refuted.

Example ex_wrap : wrap fixed 12 "  Stereo Widener and  Compressor off" = [" Stereo"; "Widener and"; "Compressor"; "off"]%string /\
  reads "  Stereo Widener" ["Stereo"; "Widener"]%string.
Proof.
  split; [vm_compute; reflexivity|]. assert (S : separator " ") by (exact space_sep). constructor; [exact S|]. constructor; [exact S|].
  apply (reads_word "Stereo" " Widener" ["Widener"%string]).
  - split; [discriminate|]. cbn. unfold separator. vm_compute. intuition lia.
  - right. eauto.
  - constructor; [exact S|]. apply reads_one. split; [discriminate|]. cbn. unfold separator. vm_compute. intuition lia.
Qed.
