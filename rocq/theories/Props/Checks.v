(* C89: the web editor's warnings about display labels. *)
From Coq Require Import String Ascii.
From Verif.Lib Require Import Base.
From Verif.Model Require Import Checks.
From Verif.Spec Require Import Checks.
From Verif.Proofs Require Import Checks.
Open Scope string_scope.
Local Open Scope list_scope.

(* The editor warns about an action and a display exactly if the action uses the display, and it is used once more (by another action, or another argument) such that both are enabled
   at the same time for some choice of the pages shown by the pagers. Partial: displays must not be given by position, see C89_position_refuted *)
Theorem C89_exact_partial : forall displays c, sound c -> by_name displays c ->
  exists ms, check displays c [] = Some ms /\
    forall a d, In a (actions c) -> In d displays ->
      (warned ms a d <-> exists i, uses a i d /\ exists b j, In b (actions c) /\ uses b j d /\ (b, j) <> (a, i) /\ together a b).
Proof.
  intros ds c S B. destruct (check_total ds c [] B) as [ms E]. exists ms. split; [exact E|]. intros a d Ha Hd. rewrite warned_about, (check_about ds c [] ms d (a_id a) B E), <- exact_hits by assumption. split.
  - intros [[m [[] _]]|[_ H]]. exact H.
  - intros H. right. auto.
Qed.
Print Assumptions C89_exact_partial.

(* No warnings about anything else *)
Theorem C89_only : forall displays c ms m, sound c -> by_name displays c -> check displays c [] = Some ms -> In m ms -> In (fst m) displays /\ forall a, In a (snd m) -> exists b, In b (actions c) /\ a_id b = a_id a /\ warned ms b (fst m).
Proof.
  intros ds c ms m S B E Hm.
  assert (forall id, In id (map a_id (snd m)) -> In (fst m) ds /\ exists b, In b (actions c) /\ a_id b = id) as Q.
  { intros id H. assert (about ms (fst m) id) as A by (exists m; auto). apply (check_about ds c [] ms _ _ B E) in A. destruct A as [[x [[] _]]|[A [u [_ [_ D]]]]]. split; [exact A|]. apply in_map_iff in D. destruct D as [b [D F]]. exists b. split; [|exact D].
    unfold filtered in F. apply filter_In in F. destruct F as [F _]. apply in_map_iff in F. destruct F as [[b' k] [F G]]. cbn [fst] in F. subst b'. apply pairs_in in G. apply G. }
  split.
  - destruct (snd m) as [|a l] eqn:W; [|apply (Q (a_id a)); left; reflexivity]. exfalso. revert E Hm W. clear. intros E Hm W.
    assert (forall ds ms ms', check ds c ms = Some ms' -> (forall m, In m ms -> snd m <> []) -> forall m, In m ms' -> snd m <> []) as P.
    { clear. induction ds as [|d ds IH]; intros ms ms' E H; cbn [check] in E; [injection E as <-; exact H|]. destruct (usages d c) as [us|]; [|discriminate E]. apply (IH _ _ E). clear IH E. unfold check_display.
      assert (forall m ms, snd m <> [] -> (forall x, In x ms -> snd x <> []) -> forall x, In x (add_message m ms) -> snd x <> []) as AM.
      { clear. intros m ms Hm. induction ms as [|y ms IH]; cbn [add_message]; intros H x Hx; [destruct Hx as [<-|[]]; exact Hm|]. destruct (String.eqb (fst y) (fst m)).
        - destruct Hx as [<-|Hx]; [|apply H; right; exact Hx]. cbn [snd]. specialize (H y (or_introl eq_refl)). destruct (snd y); [congruence|discriminate].
        - destruct Hx as [<-|Hx]; [apply H; left; reflexivity|]. apply IH; [intros z Hz; apply H; right; exact Hz|exact Hx]. }
      assert (forall p g ms, (forall x, In x ms -> snd x <> []) -> forall x, In x (check_page d us p ms g) -> snd x <> []) as CP.
      { intros p g ms0 H0. unfold check_page. destruct (Nat.ltb_spec 1 (length (filtered p g us))) as [L|L]; [|exact H0]. apply AM; [|exact H0]. cbn [snd]. intros W. rewrite W in L. cbn in L. lia. }
      assert (forall p gs ms, (forall x, In x ms -> snd x <> []) -> forall x, In x (fold_left (check_page d us p) gs ms) -> snd x <> []) as CPS by (intros p gs; induction gs as [|g gs IH]; intros ms0 H0; cbn [fold_left]; [exact H0|apply IH, CP, H0]).
      revert ms H. induction (tree us) as [|t ts IH]; intros ms H; cbn [fold_left]; [exact H|apply IH, CPS, H]. }
    exact (P ds [] ms E (fun x H => match H with end) m Hm W).
  - intros a Ha. destruct (Q (a_id a)) as [_ [b [Hb Eb]]]; [apply in_map, Ha|]. exists b. split; [exact Hb|]. split; [exact Eb|]. apply warned_about. exists m. split; [exact Hm|]. split; [reflexivity|]. rewrite Eb. apply in_map, Ha.
Qed.
Print Assumptions C89_only.

(* The full claim: the check works for all configurations. With a display given by position, it fails altogether *)
Theorem C89_position_refuted : ~ (forall displays c, sound c -> exists ms, check displays c [] = Some ms).
Proof.
  intros H. destruct (H ["DISPLAY_1"] [([{| a_id := 1; a_args := [(None, "1"); (None, "DISPLAY_1")] |}], [])]) as [ms E].
  - split; [repeat constructor; intros []|]. intros a x [<-|[]] [be [af [W _]]]. cbn [a_args] in W. destruct be as [|? [|? [|? be]]]; discriminate W.
  - discriminate E.
Qed.
Print Assumptions C89_position_refuted.

(* Two actions on different pages of a pager, and one which is always enabled: all three are warned about for DISPLAY_1, nothing for DISPLAY_2, where the third one is only a preview *)
Definition ex_action id page display extra := {| a_id := id; a_args := [(Some "display", display); (Some "id", page); (Some "enable_callback", "_pager.enable_callback")] ++ extra |}.
Example ex_checks :
  let c := [([ex_action 1 "1" "DISPLAY_1" []; ex_action 2 "2" "DISPLAY_1" []], [ex_action 3 "1" "DISPLAY_2" []; ex_action 4 "2" "DISPLAY_2" []]);
            ([{| a_id := 5; a_args := [(Some "display", "DISPLAY_1"); (Some "preview_display", "DISPLAY_2")] |}], [])] in
  let ms := match check ["DISPLAY_1"; "DISPLAY_2"] c [] with Some ms => ms | None => [] end in
  sound c /\ by_name ["DISPLAY_1"; "DISPLAY_2"] c /\ map (fun m => (fst m, map a_id (snd m))) ms = [("DISPLAY_1", [1; 5; 2])]%nat /\ uses (ex_action 1 "1" "DISPLAY_1" []) 0 "DISPLAY_1".
Proof.
  split; [split|split; [|split]].
  - cbn. repeat (constructor; [cbn; intuition discriminate|]). constructor.
  - intros a x H. cbn in H. intros V. apply argument_value in V. repeat (destruct H as [<-|H]; [vm_compute in V; discriminate V|]). destruct H.
  - intros a d H _ W. cbn in H. repeat (destruct H as [<-|H]; [cbn in W; intuition discriminate|]). destruct H.
  - vm_compute. reflexivity.
  - exists "display". split; [reflexivity|]. split; intros W; apply includes_contains in W; discriminate W.
Qed.
