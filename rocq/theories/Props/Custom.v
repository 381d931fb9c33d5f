(* C103: switches which send messages or keys. *)
From Verif.Lib Require Import Base.
From Verif.Model Require Import Period Switch Custom.
From Verif.Spec Require Import Switch Custom.
Local Open Scope list_scope.

Lemma raw_ok d : are_bytes d -> raw d = Some [Midi d].
Proof. intros H. unfold raw. assert (E : forallb (fun b => (0 <=? b) && (b <? 256)) d = true) by (apply forallb_forall; intros b I; eapply Forall_forall in H; [|exact I]; cbn in H; lia). rewrite E. reflexivity. Qed.
Lemma push_ok usb a : valid a -> on_push usb a = Some (pushing usb a).
Proof. destruct a as [m r|l|]; cbn; auto. intros [H _]. apply raw_ok, H. Qed.
Lemma release_ok a : valid a -> on_release a = Some (releasing a).
Proof. destruct a as [m [[|b d]|]|l|]; cbn; auto. intros [_ H]. apply raw_ok, H. reflexivity. Qed.
Lemma events_push usb act l : (forall a, valid (act a)) -> on_events usb act (map Push l) = Some (flat_map (fun a => pushing usb (act a)) l).
Proof. intros V. induction l as [|a l IH]; cbn [map on_events on_event flat_map]; [reflexivity|]. rewrite push_ok, IH by apply V. reflexivity. Qed.
Lemma events_release usb act l : (forall a, valid (act a)) -> on_events usb act (map Release l) = Some (flat_map (fun a => releasing (act a)) l).
Proof. intros V. induction l as [|a l IH]; cbn [map on_events on_event flat_map]; [reflexivity|]. rewrite release_ok, IH by apply V. reflexivity. Qed.
Lemma each_map en (f : Z -> switch_ev) l : each en (fun a => [f a]) l = map f (filter en l).
Proof. unfold each. induction l as [|a l IH]; cbn; [reflexivity|]. destruct (en a); cbn; rewrite IH; reflexivity. Qed.

(* Whatever happens, a switch sends what its actions say: all that are enabled when it goes down or up, in their order, and nothing otherwise *)
Lemma run_sent acts rep act : (forall a, valid (act a)) -> forall h s, no_override (map fst h) -> hold_active s = false -> run (mkSwitchCfg acts [] rep) act s h = Some (sent acts act (pushed_state s) h).
Proof.
  intros V. induction h as [|[p usb] h IH]; intros s N A; [reflexivity|]. inversion N as [|? ? Np N']; subst. cbn [run sent fst] in *. unfold process, do_push, do_release, release_normal, has_hold. cbn [sw_hold sw_actions]. rewrite A, Np.
  destruct (p_pushed p) eqn:P, (pushed_state s) eqn:S; cbn [negb fst snd].
  - cbn [on_events]. rewrite (IH s N' A), S. reflexivity.
  - rewrite each_map, (events_push usb act _ V), (IH _ N'); [reflexivity | reflexivity].
  - rewrite each_map, (events_release usb act _ V), (IH _ N'); [reflexivity | reflexivity].
  - cbn [on_events]. rewrite (IH s N' A), S. reflexivity.
Qed.
Theorem C103_sent_partial acts rep act T h : (forall a, valid (act a)) -> no_override (map fst h) -> run (mkSwitchCfg acts [] rep) act (new_switch T) h = Some (sent acts act false h).
Proof. intros V N. apply (run_sent acts rep act V h (new_switch T) N eq_refl). Qed.

(* Each complete press sends the message and then the message for releasing, once *)
Definition ends (prev : bool) (h : list (poll * bool)) : bool := fold_left (fun _ x => p_pushed (fst x)) h prev.
Lemma sent_app acts act h : forall prev h', sent acts act prev (h ++ h') = sent acts act prev h ++ sent acts act (ends prev h) h'.
Proof. induction h as [|[p u] h IH]; intros prev h'; cbn [app sent ends fold_left fst]; [reflexivity|]. rewrite IH, app_assoc. reflexivity. Qed.
Lemma ends_app prev h h' : ends prev (h ++ h') = ends (ends prev h) h'.
Proof. unfold ends. apply fold_left_app. Qed.
Lemma held_sent acts act held : Forall (fun x : poll * bool => p_pushed (fst x) = true) held -> sent acts act true held = [] /\ ends true held = true.
Proof. induction 1 as [|[p u] held P F [IH1 IH2]]; [split; reflexivity|]. cbn [sent ends fold_left fst] in *. rewrite P, IH1. split; [reflexivity | exact IH2]. Qed.
Lemma presses_sent a act m r h n : act a = Message m (Some r) -> r <> [] -> presses a h n -> ends false h = false /\ sent [a] act false h = List.concat (repeat [Midi m; Midi r] n).
Proof.
  intros E R. induction 1 as [|h p u n H [IH1 IH2] P|h p0 u0 held pr ur n H [IH1 IH2] P0 F Pr En].
  - split; reflexivity.
  - rewrite ends_app, sent_app, IH1, IH2. cbn. rewrite P. split; [reflexivity|]. apply app_nil_r.
  - destruct (held_sent [a] act held F) as [S1 S2]. change ((p0, u0) :: held ++ [(pr, ur)]) with ([(p0, u0)] ++ held ++ [(pr, ur)]). rewrite !ends_app, !sent_app, IH1, IH2. cbn [ends fold_left fst]. rewrite P0. fold (ends true held). rewrite S1, S2, Pr. split; [reflexivity|].
    cbn [sent]. rewrite P0, Pr. unfold enabled_of. cbn [filter]. rewrite <- En. destruct (p_enabled p0 a); cbn [flat_map app]; [|rewrite app_nil_r; reflexivity].
    rewrite E. cbn [pushing releasing]. destruct r as [|b r]; [now elim R|]. cbn [List.length Nat.eqb app].
    assert (X : forall k, List.concat (repeat [Midi m; Midi (b :: r)] k) ++ [Midi m; Midi (b :: r)] = List.concat (repeat [Midi m; Midi (b :: r)] (S k))). { induction k as [|k IHk]; [reflexivity|]. cbn [repeat List.concat]. rewrite <- app_assoc, IHk. reflexivity. }
    exact (X n).
Qed.
Theorem C103_paired_partial a rep act T m r h n : (forall a, valid (act a)) -> act a = Message m (Some r) -> r <> [] -> no_override (map fst h) -> presses a h n ->
  run (mkSwitchCfg [a] [] rep) act (new_switch T) h = Some (List.concat (repeat [Midi m; Midi r] n)).
Proof. intros V E R N P. rewrite C103_sent_partial by assumption. f_equal. eapply presses_sent; eauto. Qed.
(* Actions which only show a text never send anything *)
Theorem C103_text c act s h : (forall a, act a = Text) -> run c act s h = Some [].
Proof.
  intros V. assert (E : forall usb l, on_events usb act l = Some []). { intros usb. induction l as [|e l IH]; cbn; [reflexivity|]. rewrite IH. destruct e as [a|a| |]; cbn; rewrite ?V; reflexivity. }
  revert s. induction h as [|[p usb] h IH]; intros s; cbn [run]; [reflexivity|]. destruct (process c s p) as [s' ev]. rewrite E, IH. reflexivity.
Qed.

Definition at_time (pushed : bool) (enabled : bool) : poll * bool := (mkPoll pushed 0 (fun _ => enabled) None, true).
(* Not proved, because it does not hold: when the switch is up again, the message for releasing has been sent as often as the message. It is not if the action is disabled in between, for example by changing the page. *)
Theorem C103_paired_refuted : ~ (forall h T, ends_up (map fst h) -> no_override (map fst h) ->
  exists n, run (mkSwitchCfg [0] [] false) (fun _ => Message [144; 60; 100] (Some [128; 60; 0])) (new_switch T) h = Some (List.concat (repeat [Midi [144; 60; 100]; Midi [128; 60; 0]] n))).
Proof.
  intros H. destruct (H [at_time true true; at_time false false] 600) as (n & E).
  - right. exists [fst (at_time true true)], (fst (at_time false false)). split; reflexivity.
  - repeat constructor.
  - vm_compute in E. destruct n as [|n]; cbn in E; discriminate.
Qed.
(* Not proved, because it does not hold: pushing a switch never ends the program. A message with a value which is no byte does, and only when the switch is pushed. *)
Theorem C103_bytes_refuted : ~ (forall act T h, no_override (map fst h) -> run (mkSwitchCfg [0] [] false) act (new_switch T) h <> None).
Proof. intros H. apply (H (fun _ => Message [176; 80; 256] None) 600 [at_time true true]); [repeat constructor | vm_compute; reflexivity]. Qed.
(* A switch which sends a note and types two keys *)
Example ex_custom : let act := fun a => if a =? 0 then Message [144; 60; 100] (Some [128; 60; 0]) else Keyboard [80; 79] in
  run (mkSwitchCfg [0; 1] [] false) act (new_switch 600) [at_time true true; at_time true true; at_time false true; at_time true false; at_time false true]
  = Some [Midi [144; 60; 100]; Key 80; Key 79; Midi [128; 60; 0]; Midi [128; 60; 0]].
Proof. vm_compute. reflexivity. Qed.
Example ex_presses : presses 0 [at_time false true; at_time true true; at_time true true; at_time false true] 1 /\ valid (Message [144; 60; 100] (Some [128; 60; 0])).
Proof.
  split; [|cbn; unfold are_bytes; split; [repeat constructor; lia | intros d [= <-]; repeat constructor; lia]].
  exact (presses_press 0 [at_time false true] (fst (at_time true true)) true [at_time true true] (fst (at_time false true)) true 0 (presses_idle 0 [] (fst (at_time false true)) true 0 (presses_nil 0) eq_refl) eq_refl (Forall_cons (at_time true true) eq_refl (Forall_nil _)) eq_refl eq_refl).
Qed.
Print Assumptions C103_sent_partial. Print Assumptions C103_paired_partial. Print Assumptions C103_text. Print Assumptions C103_paired_refuted. Print Assumptions C103_bytes_refuted.
