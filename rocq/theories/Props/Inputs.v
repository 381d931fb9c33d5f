(* C104: inputs of the emulated controller. *)
From Verif.Lib Require Import Base.
From Verif.Model Require Import Period Switch Inputs.
From Verif.Spec Require Import Switch Inputs.
From Verif.Proofs Require Import Switch.
Local Open Scope list_scope.

Lemma pushed_eq g i : pushed g i = g_pushed g i.
Proof. unfold pushed, value. destruct (g_pushed g i); reflexivity. Qed.

(* What is held by the mouse *)
Record mouse_inv (h : option nat) (g : page) : Prop := { m_pushed : forall i, g_pushed g i = match h with Some j => Nat.eqb i j | None => false end; m_held : forall i, h = Some i -> g_over g = Some i /\ g_button g = true }.
Definition next_held (g : page) (h : option nat) (a : act) : option nat :=
  match a with
  | MoveTo t => match h, t with Some i, Some j => if Nat.eqb i j then h else None | _, _ => None end
  | Press => if g_button g then h else g_over g
  | LetGo => None
  | _ => h
  end.
Lemma mouse_step h g a : mouse_inv h g -> mouse a -> mouse_inv (next_held g h a) (do_act g a).
Proof.
  intros [P H] M. destruct a as [t| | |i|i|i]; try contradiction; cbn [do_act next_held].
  - destruct h as [i|].
    + destruct (H i eq_refl) as [O B]. rewrite O. destruct t as [j|].
      * destruct (Nat.eqb_spec i j) as [<-|N].
        -- split; [exact P|]. intros k [= <-]. cbn. auto.
        -- split; [|discriminate]. intros k. cbn. unfold over. rewrite O. cbn. unfold set_pushed. rewrite P. destruct (Nat.eqb k i); reflexivity.
      * split; [|discriminate]. intros k. cbn. unfold over. rewrite O. cbn. unfold set_pushed. rewrite P. destruct (Nat.eqb k i); reflexivity.
    + split; [|discriminate]. intros k. cbn [g_pushed]. destruct (match g_over g with Some i => _ | None => _ end); [apply P|]. unfold over, up. destruct (g_over g) as [i|]; [|apply P]. cbn. unfold set_pushed. rewrite P. destruct (Nat.eqb k i); reflexivity.
  - destruct (g_button g) eqn:B; [split; auto; rewrite ?B; auto|]. assert (h = None) as -> by (destruct h as [i|]; [destruct (H i eq_refl); congruence | reflexivity]).
    unfold over. cbn. destruct (g_over g) as [i|] eqn:O; split; cbn; try discriminate; auto.
    + intros k. unfold set_pushed. rewrite P. destruct (Nat.eqb k i); reflexivity.
  - destruct (g_button g) eqn:B.
    + split; [|discriminate]. intros k. unfold over. cbn. destruct (g_over g) as [i|] eqn:O; cbn; rewrite ?P; unfold set_pushed; rewrite ?P.
      * destruct h as [j|]; [|destruct (Nat.eqb k i); reflexivity]. destruct (H j eq_refl) as [E _]. injection E as ->. destruct (Nat.eqb k j); reflexivity.
      * destruct h as [j|]; [destruct (H j eq_refl); discriminate | reflexivity].
    + assert (h = None) as -> by (destruct h as [i|]; [destruct (H i eq_refl); congruence | reflexivity]). split; auto; discriminate.
Qed.
Lemma over_step g a : mouse a -> g_over (do_act g a) = match a with MoveTo t => t | _ => g_over g end.
Proof. destruct a as [t| | |i|i|i]; try contradiction; intros _; cbn; auto; destruct (g_button g); auto; unfold over; cbn; destruct (g_over g); reflexivity. Qed.
Lemma button_step g a : mouse a -> g_button (do_act g a) = match a with Press => true | LetGo => false | _ => g_button g end.
Proof.
  destruct a as [t| | |i|i|i]; try contradiction; intros _; cbn.
  - unfold over. destruct (match g_over g with Some i => _ | None => _ end); [reflexivity|]. destruct (g_over g); reflexivity.
  - destruct (g_button g) eqn:B; auto. unfold over. cbn. destruct (g_over g); reflexivity.
  - destruct (g_button g) eqn:B; auto. unfold over. cbn. destruct (g_over g); reflexivity.
Qed.
Lemma mouse_run l : forall h g, mouse_inv h g -> Forall mouse l -> mouse_inv (holds (g_over g) (g_button g) h l) (fold_left do_act l g).
Proof.
  induction l as [|a l IH]; intros h g I F; [exact I|]. inversion F as [|? ? M F']; subst. cbn [fold_left]. specialize (IH _ _ (mouse_step h g a I M) F'). rewrite over_step, button_step in IH by exact M.
  destruct a as [t| | |i|i|i]; try contradiction; cbn [holds next_held] in *; auto.
Qed.
(* With the mouse, the controller sees exactly the switch as pushed which is held, so never two of them *)
Theorem C104_mouse l i : Forall mouse l -> pushed (fold_left do_act l new_page) i = match holds None false None l with Some j => Nat.eqb i j | None => false end.
Proof. intros F. rewrite pushed_eq. apply (m_pushed _ _ (mouse_run l None new_page ltac:(split; [reflexivity | discriminate]) F)). Qed.
(* With touches, it sees those as pushed on which there are fingers *)
Theorem C104_touch_partial l i : Forall touch l -> pushed (fold_left do_act l new_page) i = touched i l.
Proof.
  intros F. rewrite pushed_eq. unfold touched.
  match goal with |- _ = fold_left ?f l false => assert (X : forall l, Forall touch l -> forall g b, g_pushed g i = b -> g_pushed (fold_left do_act l g) i = fold_left f l b) end; [|apply X; [exact F | reflexivity]].
  clear. induction 1 as [|a l T F IH]; intros g b E; cbn [fold_left]; [exact E|]. apply IH.
  destruct a as [t| | |j|j|j]; try contradiction; cbn; unfold set_pushed; rewrite Nat.eqb_sym, E; reflexivity.
Qed.

(* What the controller does *)
Lemma run_polls_app i h : forall g h', polls i g (h ++ h') = polls i g h ++ polls i (fold_left do_act (acts_of h) g) h'.
Proof. induction h as [|[a|t en] h IH]; intros g h'; cbn [app polls acts_of flat_map fold_left]; [reflexivity | apply IH | rewrite IH; reflexivity]. Qed.
Lemma polls_no_override i h : forall g, no_override (polls i g h).
Proof. induction h as [|[a|t en] h IH]; intros g; cbn [polls]; [constructor | apply IH | constructor; [reflexivity | apply IH]]. Qed.
Definition last_of (prev : bool) (ps : list poll) : bool := fold_left (fun _ p => p_pushed p) ps prev.
Lemma edges_app acts ps : forall prev ps', edges acts prev (ps ++ ps') = edges acts prev ps ++ edges acts (last_of prev ps) ps'.
Proof. induction ps as [|p ps IH]; intros prev ps'; cbn [app edges last_of fold_left]; [reflexivity|]. rewrite IH, app_assoc. reflexivity. Qed.
Lemma acts_app h h' : acts_of (h ++ h') = acts_of h ++ acts_of h'.
Proof. apply flat_map_app. Qed.
Lemma slow_mouse h : slow h -> Forall mouse (acts_of h).
Proof. induction 1 as [|h t en S IH|h a t en S IH M]; [constructor | rewrite acts_app; cbn; rewrite app_nil_r; exact IH | rewrite acts_app; cbn; apply Forall_app; split; [exact IH | constructor; auto]]. Qed.
Lemma last_poll i h : slow h -> last_of false (polls i new_page h) = g_pushed (fold_left do_act (acts_of h) new_page) i.
Proof.
  intros S. destruct S as [|h t en S|h a t en S M]; [reflexivity| |]; rewrite run_polls_app, acts_app, fold_left_app; unfold last_of; rewrite fold_left_app; cbn; apply pushed_eq.
Qed.
Lemma clicks_app i l : forall o b l', Forall mouse l -> clicks i o b (l ++ l') = (clicks i o b l + clicks i (g_over (fold_left do_act l (mkPage o b (fun _ => false)))) (g_button (fold_left do_act l (mkPage o b (fun _ => false)))) l')%nat.
Proof.
  assert (X : forall l g g', Forall mouse l -> g_over g = g_over g' -> g_button g = g_button g' -> g_over (fold_left do_act l g) = g_over (fold_left do_act l g') /\ g_button (fold_left do_act l g) = g_button (fold_left do_act l g')).
  { clear l. induction l as [|a l IH]; intros g g' F O B; [auto|]. inversion F as [|? ? M F']; subst. cbn [fold_left]. apply IH; [exact F' | rewrite !over_step by exact M; destruct a; congruence | rewrite !button_step by exact M; destruct a; congruence]. }
  induction l as [|a l IH]; intros o b l' F; [reflexivity|]. inversion F as [|? ? M F']; subst. cbn [app fold_left].
  set (g := mkPage o b (fun _ => false)).
  assert (E : forall o' b', g_over (do_act g a) = o' -> g_button (do_act g a) = b' -> (g_over (fold_left do_act l (do_act g a)) = g_over (fold_left do_act l (mkPage o' b' (fun _ => false))) /\ g_button (fold_left do_act l (do_act g a)) = g_button (fold_left do_act l (mkPage o' b' (fun _ => false))))) by (intros; apply X; auto).
  assert (O := over_step g a M). assert (B := button_step g a M). destruct (E _ _ O B) as [-> ->]. clear E O B.
  destruct a as [t| | |j|j|j]; try contradiction; cbn [clicks g_over g_button g]; rewrite IH by exact F'; cbn; lia.
Qed.
Lemma count_push acts (en : Z -> bool) a : NoDup acts -> In a acts -> en a = true -> pushes a (map Push (filter en acts)) = 1%nat /\ pushes a (map Switch.Release (filter en acts)) = 0%nat.
Proof.
  intros D I E. split.
  - induction D as [|b l N D IH]; [contradiction|]. cbn [filter]. destruct (Z.eq_dec b a) as [->|Nb].
    + rewrite E. cbn [map]. unfold pushes. cbn [filter]. rewrite Z.eqb_refl. cbn [List.length]. f_equal. assert (Z0 : forall k, ~ In a k -> List.length (filter (fun e => match e with Push b => b =? a | _ => false end) (map Push (filter en k))) = 0%nat).
      { clear. induction k as [|b k IH]; intros N; [reflexivity|]. cbn [filter]. cbn in N. destruct (en b); [|apply IH; tauto]. cbn [map filter]. destruct (Z.eqb_spec b a) as [->|]; [tauto|]. apply IH. tauto. }
      apply Z0, N.
    + destruct I as [I|I]; [congruence|]. destruct (en b); [|auto]. cbn [map]. unfold pushes in *. cbn [filter]. destruct (Z.eqb_spec b a); [congruence | auto].
  - unfold pushes. induction (filter en acts) as [|b l IH]; [reflexivity | exact IH].
Qed.
Lemma pushes_app a l l' : pushes a (l ++ l') = (pushes a l + pushes a l')%nat.
Proof. unfold pushes. rewrite filter_app, app_length. reflexivity. Qed.
(* If the controller polls often enough, each click pushes each enabled action of the switch once *)
Theorem C104_clicks_partial acts rep T i h a : slow h -> NoDup acts -> In a acts -> enabled_always a h ->
  pushes a (events (mkSwitchCfg acts [] rep) T i h) = clicks i None false (acts_of h).
Proof.
  intros S D I E. unfold events. rewrite plain_run by (apply polls_no_override || reflexivity). cbn [new_switch pushed_state].
  induction S as [|h t en S IH|h b t en S IH M].
  - reflexivity.
  - assert (E' : enabled_always a h) by (intros t' en' I'; apply (E t'), in_app_iff; auto). rewrite run_polls_app, edges_app, pushes_app, (IH E'), (last_poll i h S), acts_app. cbn [acts_of flat_map app polls edges p_pushed]. rewrite app_nil_r, pushed_eq. destruct (g_pushed _ i); rewrite ?app_nil_r; cbn; lia.
  - assert (E' : enabled_always a h) by (intros t' en' I'; apply (E t'), in_app_iff; auto). assert (Ea : en a = true) by (apply (E t), in_app_iff; right; cbn; auto).
    rewrite run_polls_app, edges_app, pushes_app, (IH E'), (last_poll i h S), acts_app, clicks_app by apply slow_mouse, S. cbn [acts_of flat_map app polls edges]. rewrite ?app_nil_r, pushed_eq. cbn [p_pushed]. fold new_page. f_equal.
    set (g := fold_left do_act (acts_of h) new_page). assert (INV := mouse_run (acts_of h) None new_page ltac:(split; [reflexivity | discriminate]) (slow_mouse h S)). fold g in INV.
    assert (X : forall k, clicks i (g_over g) (g_button g) [b] = k -> (match g_pushed g i, g_pushed (do_act g b) i with false, true => 1%nat | _, _ => 0%nat end) = k).
    { intros k <-. destruct INV as [P H]. set (hd := holds _ _ _ _) in *. assert (NX := m_pushed _ _ (mouse_step hd g b (Build_mouse_inv hd g P H) M) i). rewrite P, NX. destruct b as [u| | |j|j|j]; try contradiction; cbn [next_held clicks].
      - destruct hd as [k|]; [|reflexivity]. destruct u as [j|]; [|destruct (Nat.eqb i k); reflexivity]. destruct (Nat.eqb k j); destruct (Nat.eqb i k); reflexivity.
      - destruct (g_button g) eqn:B; [destruct hd as [k|]; [destruct (Nat.eqb i k)|]; reflexivity|]. assert (hd = None) as -> by (destruct hd as [k|]; [destruct (H k eq_refl); congruence | reflexivity]). destruct (g_over g) as [j|]; [|reflexivity]. rewrite Nat.eqb_sym. destruct (Nat.eqb j i); reflexivity.
      - destruct hd as [k|]; [destruct (Nat.eqb i k)|]; reflexivity. }
    specialize (X _ eq_refl). rewrite <- X. destruct (count_push acts en a D I Ea) as [C1 C2]. unfold enabled_of. cbn [p_enabled]. destruct (g_pushed g i), (g_pushed (do_act g b) i); rewrite ?app_nil_r; auto.
Qed.
(* The wheel has the position it has been dragged to, whatever moves of the pointer there have been in between *)
Theorem C104_wheel l : w_data (turn l) = dragged None l /\ w_pos (turn l) = dragged None l.
Proof.
  assert (X : forall l w x, (w_drag w = true <-> x <> None) -> (forall y, x = Some y -> w_pos w = w_start w + (y - w_center w)) -> w_data w = w_pos w ->
    w_pos (fold_left do_drag l w) = w_pos w + dragged x l /\ w_data (fold_left do_drag l w) = w_pos (fold_left do_drag l w)).
  { clear l. induction l as [|d l IH]; intros w x D P E; cbn [fold_left dragged]; [split; [lia | exact E]|]. destruct d as [x'|x'|]; cbn [do_drag].
    - destruct (IH (mkWheel x' (w_pos w) (w_pos w) (w_data w) true) (Some x')) as [A B]; cbn; [split; congruence | intros y [= <-]; lia | exact E |]. split; [exact A | exact B].
    - destruct x as [x0|].
      + rewrite (proj2 D) by discriminate. specialize (P x0 eq_refl). destruct (IH (mkWheel (w_center w) (w_start w) (w_start w + (x' - w_center w)) (w_start w + (x' - w_center w)) true) (Some x')) as [A B]; cbn in *; [split; congruence | intros y [= <-]; lia | reflexivity |]. split; [lia | exact B].
      + destruct (w_drag w) eqn:W; [elim (proj1 D eq_refl); reflexivity|]. apply (IH w None); auto. rewrite W. split; congruence.
    - destruct (IH (mkWheel (w_center w) (w_start w) (w_pos w) (w_data w) false) None) as [A B]; cbn; [split; congruence | discriminate | exact E |]. split; [exact A | exact B]. }
  destruct (X l new_wheel None) as [A B]; [split; cbn; congruence | discriminate | reflexivity |]. unfold turn. rewrite B, A. cbn. lia.
Qed.

(* Not proved, because it does not hold: each click pushes the actions. One which is over before the next poll of the controller is lost. *)
Theorem C104_clicks_refuted : ~ (forall acts rep T i h a, Forall mouse (acts_of h) -> NoDup acts -> In a acts -> enabled_always a h -> pushes a (events (mkSwitchCfg acts [] rep) T i h) = clicks i None false (acts_of h)).
Proof.
  intros H. specialize (H [7] false 600 0%nat [Do (MoveTo (Some 0%nat)); Poll 0 (fun _ => true); Do Press; Do LetGo; Poll 1 (fun _ => true)] 7). vm_compute in H. assert (X : 0%nat = 1%nat); [|discriminate]. apply H.
  - repeat constructor.
  - repeat constructor. intros [].
  - left. reflexivity.
  - intros t en [I|[I|[I|[I|[I|[]]]]]]; inversion I; reflexivity.
Qed.
(* Not proved, because it does not hold: a switch no finger is on is not pushed. If the system cancels a touch, the switch stays pushed. *)
Theorem C104_touch_refuted : ~ (forall l i, pushed (fold_left do_act l new_page) i = true -> touched i l = true \/ holds None false None l = Some i).
Proof. intros H. destruct (H [TouchStart 0; TouchCancel 0]%nat 0%nat eq_refl) as [E|E]; discriminate. Qed.
(* Clicking two switches, leaving the second one before letting go; turning the wheel twice *)
Example ex_inputs :
  let h := [Do (MoveTo (Some 0%nat)); Poll 0 (fun _ => true); Do Press; Poll 1 (fun _ => true); Do LetGo; Poll 2 (fun _ => true); Do (MoveTo (Some 1%nat)); Poll 3 (fun _ => true); Do Press; Poll 4 (fun _ => true); Do (MoveTo None); Poll 5 (fun _ => true)] in
  events (mkSwitchCfg [7] [] false) 600 0 h = [Push 7; Switch.Release 7] /\ events (mkSwitchCfg [8] [] false) 600 1 h = [Push 8; Switch.Release 8]
  /\ w_data (turn [PointerDown 10; PointerMove 15; PointerMove 12; PointerUp; PointerMove 90; PointerDown 50; PointerMove 40; PointerUp]) = -8.
Proof. vm_compute. auto. Qed.
Example ex_slow : slow [Do Press; Poll 0 (fun _ => true)].
Proof. exact (slow_act [] Press 0 (fun _ => true) slow_nil I). Qed.
Print Assumptions C104_mouse. Print Assumptions C104_touch_partial. Print Assumptions C104_clicks_partial. Print Assumptions C104_wheel. Print Assumptions C104_clicks_refuted. Print Assumptions C104_touch_refuted.
