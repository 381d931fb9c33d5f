From Verif.Lib Require Import Base.
From Verif.Model Require Import Period Switch.
From Verif.Spec Require Import Switch.

Lemma each_click p l : each (p_enabled p) (fun a => [Push a; Release a]) l = click p l.
Proof.
  unfold each, click, enabled_of. induction l as [|a l IH]; cbn; auto.
  rewrite IH. destruct (p_enabled p a); reflexivity.
Qed.
Lemma each_map p (f : Z -> switch_ev) l : each (p_enabled p) (fun a => [f a]) l = map f (enabled_of p l).
Proof.
  unfold each, enabled_of. induction l as [|a l IH]; cbn; auto.
  rewrite IH. destruct (p_enabled p a); reflexivity.
Qed.

(* ---- C25 ---- *)

Lemma plain_step acts ms s p :
  p_override p = None -> hold_active s = false ->
  process (mkSwitchCfg acts [] ms) s p =
  match pushed_state s, p_pushed p with
  | false, true => (mkSwitch true false (hold_was_active s) (period_hold s), map Push (enabled_of p acts))
  | true, false => (mkSwitch false false false (period_hold s), map Release (enabled_of p acts))
  | _, _ => (s, [])
  end.
Proof.
  intros Hov Hh. unfold process, do_push, do_release, release_normal, has_hold.
  cbn [sw_hold sw_actions pushed_state hold_active period_hold]. rewrite Hh, Hov, !each_map.
  destruct (p_pushed p), (pushed_state s); reflexivity.
Qed.

Lemma plain_run acts ms s ps :
  no_override ps -> hold_active s = false ->
  snd (run (process (mkSwitchCfg acts [] ms)) s ps) = edges acts (pushed_state s) ps.
Proof.
  intros Hov. revert s. induction ps as [|p ps IH]; intros s Hh.
  - rewrite run_nil. reflexivity.
  - inv Hov. rewrite run_cons, (plain_step acts ms s p H1 Hh). cbn [snd edges].
    destruct (p_pushed p) eqn:Ep; destruct (pushed_state s) eqn:Es; cbn [fst snd];
      rewrite IH; auto; cbn; rewrite ?Es; reflexivity.
Qed.

Lemma alternates_app_map_none a down l evs :
  ~ In a l -> alternates a down (map Push l ++ evs) <-> alternates a down evs.
Proof.
  induction l as [|b l IH]; intros Hn; cbn; [tauto|].
  destruct (a =? b) eqn:E; [apply Z.eqb_eq in E; subst; exfalso; apply Hn; left; auto|].
  apply IH. intros H. apply Hn. right; auto.
Qed.
Lemma alternates_app_map_none_r a down l evs :
  ~ In a l -> alternates a down (map Release l ++ evs) <-> alternates a down evs.
Proof.
  induction l as [|b l IH]; intros Hn; cbn; [tauto|].
  destruct (a =? b) eqn:E; [apply Z.eqb_eq in E; subst; exfalso; apply Hn; left; auto|].
  apply IH. intros H. apply Hn. right; auto.
Qed.
Lemma alternates_push a l evs : NoDup l -> In a l ->
  alternates a true evs -> alternates a false (map Push l ++ evs).
Proof.
  induction l as [|b l IH]; intros Hd Hin He; [inv Hin|]. inv Hd. cbn.
  destruct (a =? b) eqn:E.
  - apply Z.eqb_eq in E; subst. split; auto. apply alternates_app_map_none; auto.
  - apply Z.eqb_neq in E. destruct Hin as [->|Hin]; [congruence|]. auto.
Qed.
Lemma alternates_release a l evs : NoDup l -> In a l ->
  alternates a false evs -> alternates a true (map Release l ++ evs).
Proof.
  induction l as [|b l IH]; intros Hd Hin He; [inv Hin|]. inv Hd. cbn.
  destruct (a =? b) eqn:E.
  - apply Z.eqb_eq in E; subst. split; auto. apply alternates_app_map_none_r; auto.
  - apply Z.eqb_neq in E. destruct Hin as [->|Hin]; [congruence|]. auto.
Qed.

Lemma edges_alternate acts a down ps :
  NoDup acts -> In a acts -> Forall (fun p => p_enabled p a = true) ps ->
  alternates a down (edges acts down ps).
Proof.
  intros Hd Hin. revert down. induction ps as [|p ps IH]; intros down He; [exact I|].
  inv He. cbn [edges].
  assert (NoDup (enabled_of p acts)) by (apply NoDup_filter; auto).
  assert (In a (enabled_of p acts)) by (apply filter_In; auto).
  destruct down, (p_pushed p); cbn [app].
  - apply IH; auto.
  - apply alternates_release; auto.
  - apply alternates_push; auto.
  - apply IH; auto.
Qed.

(* ---- C26: hold without repeat ---- *)

Lemma has_hold_true c : hold_cfg c -> has_hold c = true.
Proof. unfold hold_cfg, has_hold. destruct (sw_hold c); congruence. Qed.

(* check_hold spelled out *)
Lemma check_hold_eq c s p :
  check_hold c s p =
  if last_reset (period_hold s) + interval (period_hold s) <? p_now p then
    (if sw_repeat c then mkSwitch (pushed_state s) (hold_active s) true (mkPeriod (interval (period_hold s)) (p_now p))
     else mkSwitch (pushed_state s) false (hold_was_active s) (mkPeriod (interval (period_hold s)) (p_now p)),
     true, click p (sw_hold c))
  else (s, false, []).
Proof.
  unfold check_hold, p_exceeded. rewrite each_click.
  destruct (last_reset (period_hold s) + interval (period_hold s) <? p_now p); auto.
  destruct s; reflexivity.
Qed.

Definition inv26 (T : Z) (s : switch) : Prop :=
  hold_was_active s = false /\ (hold_active s = true -> pushed_state s = true) /\ interval (period_hold s) = T.

Lemma process_hold_step c s p : hold_cfg c -> p_override p = None ->
  process c s p =
  let T := interval (period_hold s) in
  let due := last_reset (period_hold s) + T <? p_now p in
  if p_pushed p then
    if hold_active s && due then
      (if sw_repeat c then mkSwitch (pushed_state s) true true (mkPeriod T (p_now p))
       else mkSwitch (pushed_state s) false (hold_was_active s) (mkPeriod T (p_now p)), click p (sw_hold c))
    else if pushed_state s then (s, [])
    else (mkSwitch true true (hold_was_active s) (mkPeriod T (p_now p)), [])
  else
    if pushed_state s then
      if hold_active s then
        if due then
          (if sw_repeat c then mkSwitch false true true (mkPeriod T (p_now p))
           else mkSwitch false false (hold_was_active s) (mkPeriod T (p_now p)), click p (sw_hold c))
        else if hold_was_active s then (mkSwitch false false false (period_hold s), [])
        else (mkSwitch false false false (period_hold s), click p (sw_actions c))
      else (mkSwitch false false (hold_was_active s) (period_hold s), [])
    else (s, []).
Proof.
  intros Hc Hov. cbn zeta. destruct s as [ps ha hw [T lr]].
  unfold process, do_push, do_release, release_normal.
  rewrite (has_hold_true c Hc), !check_hold_eq, Hov, !each_click. cbn.
  destruct (p_pushed p), ps, ha; cbn; auto; destruct (lr + T <? p_now p); cbn; auto;
    try (destruct hw; reflexivity); destruct (sw_repeat c); auto.
Qed.

Lemma inv26_step c T s p : hold_cfg c -> sw_repeat c = false -> p_override p = None -> inv26 T s ->
  inv26 T (fst (process c s p)) /\
  (p_pushed p = false -> pushed_state (fst (process c s p)) = false).
Proof.
  intros Hc Hr Hov (Hw & Hp & Hi). rewrite (process_hold_step c s p Hc Hov). cbn zeta. rewrite Hr, Hw.
  unfold inv26.
  destruct (p_pushed p) eqn:Epp; destruct (pushed_state s) eqn:Eps; destruct (hold_active s) eqn:Eha; cbn;
    try (specialize (Hp eq_refl); discriminate);
    try (destruct (last_reset (period_hold s) + interval (period_hold s) <? p_now p)); cbn;
    rewrite ?Hw, ?Eps, ?Eha, ?Hi; repeat split; auto; discriminate.
Qed.

Lemma inv26_run c T ps : hold_cfg c -> sw_repeat c = false -> no_override ps ->
  inv26 T (fst (run (process c) (new_switch T) ps)) /\
  (ends_up ps -> pushed_state (fst (run (process c) (new_switch T) ps)) = false).
Proof.
  intros Hc Hr. induction ps as [|ps p IH] using rev_ind_snoc; intros Hov.
  - rewrite run_nil. cbn. unfold inv26. cbn. repeat split; auto; discriminate.
  - apply Forall_app in Hov. destruct Hov as [Hov Hp]. inv Hp. destruct (IH Hov) as [IH1 _].
    rewrite run_snoc. cbn [fst]. destruct (inv26_step c T _ p Hc Hr H1 IH1) as [A B]. split; auto.
    intros [He|(ps' & q & He & Hq)]; [destruct ps; discriminate|]. apply app_inj_tail in He.
    destruct He as [_ ->]. auto.
Qed.

(* state while pressed *)
Lemma held_done c s held : hold_cfg c -> all_pushed held -> no_override held ->
  pushed_state s = true -> hold_active s = false ->
  run (process c) s held = (s, []).
Proof.
  intros Hc Hp Hov Hps Hha. induction held as [|p held IH]; [apply run_nil|].
  inv Hp. inv Hov. rewrite run_cons, (process_hold_step c s p Hc H3). cbn zeta.
  rewrite H1, Hps, Hha. cbn [andb fst snd]. rewrite IH by auto. reflexivity.
Qed.

Lemma held_run c T t0 held hw : hold_cfg c -> sw_repeat c = false -> all_pushed held -> no_override held ->
  let s := mkSwitch true true hw (mkPeriod T t0) in
  run (process c) s held =
  match find (fun p => t0 + T <? p_now p) held with
  | Some p => (mkSwitch true false hw (mkPeriod T (p_now p)), click p (sw_hold c))
  | None => (s, [])
  end.
Proof.
  intros Hc Hr Hp Hov. cbn zeta. induction held as [|p held IH]; [apply run_nil|].
  inv Hp. inv Hov. rewrite run_cons, (process_hold_step c _ p Hc H3). cbn zeta.
  cbn [pushed_state hold_active hold_was_active period_hold interval last_reset find]. rewrite H1, Hr.
  cbn [andb]. destruct (t0 + T <? p_now p) eqn:E; cbn [fst snd].
  - rewrite (held_done c _ held Hc H2 H4) by reflexivity. cbn. rewrite app_nil_r. reflexivity.
  - rewrite IH by auto. destruct (find _ held); reflexivity.
Qed.

Lemma press_held c T h p0 held :
  hold_cfg c -> sw_repeat c = false -> no_override (h ++ p0 :: held) -> ends_up h ->
  p_pushed p0 = true -> all_pushed held ->
  let s := fst (run (process c) (new_switch T) h) in
  exists per,
  run (process c) s (p0 :: held) =
  match find (fun p => p_now p0 + T <? p_now p) held with
  | Some p => (mkSwitch true false false per, click p (sw_hold c))
  | None => (mkSwitch true true false (mkPeriod T (p_now p0)), [])
  end.
Proof.
  intros Hc Hr Hov Hup Hp0 Hheld. cbn zeta.
  apply Forall_app in Hov. destruct Hov as [Hovh Hov]. inv Hov.
  destruct (inv26_run c T h Hc Hr Hovh) as ((Hw & Hap & Hi) & Hps). specialize (Hps Hup).
  set (s := fst (run (process c) (new_switch T) h)) in *.
  assert (hold_active s = false) as Hha.
  { destruct (hold_active s) eqn:E; auto. specialize (Hap eq_refl). congruence. }
  rewrite run_cons, (process_hold_step c s p0 Hc H1). cbn zeta. rewrite Hp0, Hha, Hps, Hw, Hi.
  cbn [andb fst snd]. rewrite (held_run c T (p_now p0) held false Hc Hr Hheld H2).
  destruct (find (fun p => p_now p0 + T <? p_now p) held) as [p|].
  - eexists. reflexivity.
  - exists (mkPeriod T 0). reflexivity.
Qed.

Lemma press_held_ev c T h p0 held :
  hold_cfg c -> sw_repeat c = false -> no_override (h ++ p0 :: held) -> ends_up h ->
  p_pushed p0 = true -> all_pushed held ->
  snd (run (process c) (fst (run (process c) (new_switch T) h)) (p0 :: held)) =
  match find (fun p => p_now p0 + T <? p_now p) held with
  | Some p => click p (sw_hold c)
  | None => []
  end.
Proof.
  intros. destruct (press_held c T h p0 held) as (per & E); auto. rewrite E.
  destruct (find _ held); reflexivity.
Qed.

Lemma press_full c T h p0 held pr :
  hold_cfg c -> sw_repeat c = false -> no_override (h ++ p0 :: held ++ [pr]) -> ends_up h ->
  p_pushed p0 = true -> all_pushed held -> p_pushed pr = false ->
  snd (run (process c) (fst (run (process c) (new_switch T) h)) (p0 :: held ++ [pr])) =
  match find (fun p => p_now p0 + T <? p_now p) held with
  | Some p => click p (sw_hold c)
  | None => if p_now p0 + T <? p_now pr then click pr (sw_hold c) else click pr (sw_actions c)
  end.
Proof.
  intros Hc Hr Hov Hup Hp0 Hheld Hpr.
  assert (no_override (h ++ p0 :: held) /\ p_override pr = None) as [Hov1 Hov2].
  { unfold no_override in *. rewrite app_comm_cons, app_assoc in Hov. apply Forall_app in Hov.
    destruct Hov as [A B]. inv B. auto. }
  destruct (press_held c T h p0 held Hc Hr Hov1 Hup Hp0 Hheld) as (per & E).
  rewrite app_comm_cons, run_snoc, E. cbn [fst snd].
  rewrite (process_hold_step c _ pr Hc Hov2). cbn zeta. rewrite Hpr, Hr.
  destruct (find _ held) as [p|]; cbn.
  - rewrite app_nil_r. reflexivity.
  - destruct (p_now p0 + T <? p_now pr); reflexivity.
Qed.

Lemma idle_quiet c T h ps :
  hold_cfg c -> sw_repeat c = false -> no_override (h ++ ps) -> ends_up h -> all_released ps ->
  snd (run (process c) (fst (run (process c) (new_switch T) h)) ps) = [].
Proof.
  intros Hc Hr Hov Hup Hrel. apply Forall_app in Hov. destruct Hov as [Hovh Hov].
  destruct (inv26_run c T h Hc Hr Hovh) as (_ & Hps). specialize (Hps Hup).
  set (s := fst (run (process c) (new_switch T) h)) in *. clearbody s.
  induction ps as [|p ps IH]; [reflexivity|]. inv Hrel. inv Hov.
  assert (process c s p = (s, [])) as E by (unfold process; rewrite H1, Hps; reflexivity).
  rewrite run_cons, E. cbn [fst snd app]. auto.
Qed.

(* ---- C27: hold with repeat ---- *)

Definition clean (T : Z) (s : switch) : Prop :=
  pushed_state s = false /\ hold_active s = false /\ hold_was_active s = false /\ interval (period_hold s) = T.

Lemma held_repeat c T mark held hw : hold_cfg c -> sw_repeat c = true -> all_pushed held -> no_override held ->
  run (process c) (mkSwitch true true hw (mkPeriod T mark)) held =
  (mkSwitch true true (hw || fires T mark held) (mkPeriod T (last_fire T mark held)),
   repeats (sw_hold c) T mark held).
Proof.
  intros Hc Hr. revert mark hw. induction held as [|p held IH]; intros mark hw Hp Hov.
  - rewrite run_nil. cbn. rewrite orb_false_r. reflexivity.
  - inv Hp. inv Hov. rewrite run_cons, (process_hold_step c _ p Hc H3). cbn zeta.
    cbn [pushed_state hold_active hold_was_active period_hold interval last_reset]. rewrite H1, Hr. cbn [andb].
    cbn [repeats last_fire fires existsb].
    destruct (mark + T <? p_now p) eqn:E; cbn [fst snd].
    + rewrite IH by auto. cbn. rewrite orb_true_r. reflexivity.
    + rewrite IH by auto. reflexivity.
Qed.

Lemma repeat_press c T s p0 held pr :
  hold_cfg c -> sw_repeat c = true -> clean T s -> no_override (p0 :: held ++ [pr]) ->
  p_pushed p0 = true -> all_pushed held -> p_pushed pr = false ->
  p_now pr <= last_fire T (p_now p0) held + T ->
  clean T (fst (run (process c) s (p0 :: held ++ [pr]))) /\
  snd (run (process c) s (p0 :: held ++ [pr])) =
  if fires T (p_now p0) held then repeats (sw_hold c) T (p_now p0) held else click pr (sw_actions c).
Proof.
  intros Hc Hr (Hps & Hha & Hhw & Hi) Hov Hp0 Hheld Hpr Ht.
  apply Forall_cons_iff in Hov. destruct Hov as [H1 H2].
  apply Forall_app in H2. destruct H2 as [Hovh Hov2]. apply Forall_cons_iff in Hov2. destruct Hov2 as [H3 _].
  rewrite app_comm_cons, run_snoc, run_cons, (process_hold_step c s p0 Hc H1). cbn zeta.
  rewrite Hp0, Hps, Hha, Hhw, Hi. cbn [andb fst snd].
  rewrite (held_repeat c T (p_now p0) held false Hc Hr Hheld Hovh). cbn [fst snd orb].
  rewrite (process_hold_step c _ pr Hc H3). cbn zeta.
  cbn [pushed_state hold_active hold_was_active period_hold interval last_reset]. rewrite Hpr.
  replace (last_fire T (p_now p0) held + T <? p_now pr) with false by lia.
  assert (fires T (p_now p0) held = false -> repeats (sw_hold c) T (p_now p0) held = []) as Hnone.
  { clear. generalize (p_now p0). induction held as [|p held IH]; intros m H; auto. cbn in *.
    apply orb_false_iff in H. destruct H as [H1 H2]. rewrite H1. auto. }
  destruct (fires T (p_now p0) held) eqn:Ef; cbn [fst snd].
  - split; [repeat split|]. rewrite app_nil_r. reflexivity.
  - split; [repeat split|]. rewrite (Hnone eq_refl). reflexivity.
Qed.

Lemma timely_clean c T h : hold_cfg c -> sw_repeat c = true -> timely T h -> no_override h ->
  clean T (fst (run (process c) (new_switch T) h)).
Proof.
  intros Hc Hr Ht. induction Ht as [|h p Ht IH Hp|h p0 held pr Ht IH Hp0 Hh Hpr Hl]; intros Hov.
  - rewrite run_nil. repeat split.
  - apply Forall_app in Hov. destruct Hov as [Hov Hp']. inv Hp'. specialize (IH Hov).
    rewrite run_snoc. cbn [fst]. destruct IH as (A & B & C & D).
    set (s := fst (run (process c) (new_switch T) h)) in *.
    unfold process. rewrite Hp, A. cbn. repeat split; auto.
  - apply Forall_app in Hov. destruct Hov as [Hov1 Hov2]. rewrite run_app. cbn [fst].
    apply repeat_press; auto.
Qed.

Lemma repeat_press_history c T h p0 held pr :
  hold_cfg c -> sw_repeat c = true -> timely T h -> no_override (h ++ p0 :: held ++ [pr]) ->
  p_pushed p0 = true -> all_pushed held -> p_pushed pr = false ->
  p_now pr <= last_fire T (p_now p0) held + T ->
  snd (run (process c) (fst (run (process c) (new_switch T) h)) (p0 :: held ++ [pr])) =
  if fires T (p_now p0) held then repeats (sw_hold c) T (p_now p0) held else click pr (sw_actions c).
Proof.
  intros Hc Hr Ht Hov. apply Forall_app in Hov. destruct Hov as [Hov1 Hov2]. intros.
  apply repeat_press; auto. apply timely_clean; auto.
Qed.

(* A press never mixes hold and normal actions, whatever happened before (repeat mode, any history). *)

Lemma click_in p l e : In e (click p l) -> exists a, In a l /\ (e = Push a \/ e = Release a).
Proof.
  unfold click, enabled_of. rewrite in_flat_map. intros (a & Ha & He). apply filter_In in Ha.
  exists a. split; [tauto|]. cbn in He. intuition.
Qed.

Lemma click_hold_not_normal c p e : actions_disjoint c -> In e (click p (sw_hold c)) -> ~ is_normal_ev c e.
Proof.
  intros Hd He Hn. apply click_in in He. destruct He as (a & Ha & [->| ->]); cbn in Hn; eapply Hd; eauto.
Qed.

Lemma pushed_poll_hold_only c s p : hold_cfg c -> p_override p = None -> p_pushed p = true -> sw_repeat c = true ->
  (snd (process c s p) = [] /\ (hold_was_active s = true -> hold_active s = true ->
                                hold_was_active (fst (process c s p)) = true /\ hold_active (fst (process c s p)) = true)
   \/ snd (process c s p) = click p (sw_hold c) /\
      hold_was_active (fst (process c s p)) = true /\ hold_active (fst (process c s p)) = true).
Proof.
  intros Hc Hov Hp Hr. rewrite (process_hold_step c s p Hc Hov). cbn zeta. rewrite Hp, Hr.
  destruct (hold_active s) eqn:Eha; cbn [andb].
  - destruct (last_reset (period_hold s) + interval (period_hold s) <? p_now p); cbn; auto.
    destruct (pushed_state s) eqn:Eps; cbn; rewrite ?Eha; auto.
  - destruct (pushed_state s) eqn:Eps; cbn; rewrite ?Eha; left; split; auto.
Qed.

Lemma press_exclusive c s ps pr :
  hold_cfg c -> sw_repeat c = true -> actions_disjoint c -> no_override (ps ++ [pr]) ->
  all_pushed ps -> p_pushed pr = false ->
  (exists e, In e (snd (run (process c) s ps)) /\ is_hold_ev c e) ->
  forall e, In e (snd (run (process c) s (ps ++ [pr]))) -> ~ is_normal_ev c e.
Proof.
  intros Hc Hr Hd Hov Hp Hpr Hex. apply Forall_app in Hov. destruct Hov as [Hov Hovr]. inv Hovr.
  assert ((forall e, In e (snd (run (process c) s ps)) -> ~ is_normal_ev c e) /\
          ((exists e, In e (snd (run (process c) s ps))) ->
             hold_was_active (fst (run (process c) s ps)) = true /\ hold_active (fst (run (process c) s ps)) = true))
    as [Hnn Hfl].
  { clear Hex. induction ps as [|ps p IH] using rev_ind_snoc.
    - rewrite run_nil. cbn. split; [tauto|]. intros (e & []).
    - apply Forall_app in Hp. destruct Hp as [Hp Hp1]. inv Hp1.
      apply Forall_app in Hov. destruct Hov as [Hov Hov1]. inv Hov1.
      destruct (IH Hov Hp) as [IH1 IH2]. rewrite run_snoc. cbn [fst snd].
      set (s1 := fst (run (process c) s ps)) in *.
      destruct (pushed_poll_hold_only c s1 p Hc H5 H3 Hr) as [[E1 E2]|[E1 E2]]; rewrite E1.
      + rewrite app_nil_r. split; auto. intros Hx. destruct (IH2 Hx) as [A B]. auto.
      + split; auto. intros e. rewrite in_app_iff. intros [He|He]; auto. eapply click_hold_not_normal; eauto. }
  destruct Hex as (e0 & He0 & _). destruct (Hfl (ex_intro _ e0 He0)) as [Hw Ha].
  rewrite run_snoc. cbn [snd]. intros e. rewrite in_app_iff. intros [He|He]; auto.
  rewrite (process_hold_step c _ pr Hc H1) in He. cbn zeta in He. rewrite Hpr, Ha, Hw in He.
  destruct (pushed_state _); [|destruct He].
  destruct (_ <? _) in He; cbn in He; [|destruct He].
  eapply click_hold_not_normal; eauto.
Qed.

(* Hold clicks are more than the hold time apart, for any history with a clock that does not run backwards. *)
Lemma last_reset_mono c s p t : hold_cfg c -> p_override p = None ->
  t <= last_reset (period_hold s) -> t <= p_now p ->
  t <= last_reset (period_hold (fst (process c s p))) /\
  interval (period_hold (fst (process c s p))) = interval (period_hold s).
Proof.
  intros Hc Hov Hl Hn. rewrite (process_hold_step c s p Hc Hov). cbn zeta.
  repeat match goal with |- context [if ?b then _ else _] => destruct b end; cbn; auto.
Qed.

Lemma monotone_app t a b :
  monotone t (a ++ b) -> monotone t a /\ monotone (fold_left (fun _ p => p_now p) a t) b.
Proof.
  revert t. induction a as [|p a IH]; intros t H; cbn in *; [auto|].
  destruct H as [H1 H2]. apply IH in H2. tauto.
Qed.

Lemma interval_run c s ps : hold_cfg c -> no_override ps ->
  interval (period_hold (fst (run (process c) s ps))) = interval (period_hold s).
Proof.
  intros Hc. revert s. induction ps as [|p ps IH]; intros s Hov; [reflexivity|].
  inv Hov. rewrite run_cons. cbn [fst]. rewrite IH by auto.
  eapply (last_reset_mono c s p (Z.min (last_reset (period_hold s)) (p_now p))); auto; lia.
Qed.

Lemma last_reset_run c s ps t : hold_cfg c -> no_override ps -> t <= last_reset (period_hold s) -> monotone t ps ->
  t <= last_reset (period_hold (fst (run (process c) s ps))).
Proof.
  intros Hc. revert s. induction ps as [|p ps IH]; intros s Hov Hl Hm; [auto|].
  inv Hov. cbn in Hm. destruct Hm as [Hm1 Hm2]. rewrite run_cons. cbn [fst].
  destruct (last_reset_mono c s p t Hc H1 Hl Hm1) as [A _].
  apply IH; auto. clear - Hm1 Hm2. destruct ps as [|q ps]; cbn in *; [auto|]. split; [lia|tauto].
Qed.

Lemma hold_click_nonempty_fired c s p : hold_cfg c -> p_override p = None -> actions_disjoint c ->
  (exists e, In e (snd (process c s p)) /\ is_hold_ev c e) ->
  last_reset (period_hold s) + interval (period_hold s) < p_now p /\
  last_reset (period_hold (fst (process c s p))) = p_now p.
Proof.
  intros Hc Hov Hd (e & He & Hh). rewrite (process_hold_step c s p Hc Hov) in *. cbn zeta in *.
  assert (~ In e (click p (sw_actions c))) as Hna.
  { intros Hin. apply click_in in Hin. destruct Hin as (a & Ha & [->| ->]); cbn in Hh; eapply Hd; eauto. }
  destruct (last_reset (period_hold s) + interval (period_hold s) <? p_now p) eqn:E.
  - destruct (p_pushed p), (hold_active s), (pushed_state s); cbn in *; try tauto;
      destruct (sw_repeat c); cbn; split; auto; lia.
  - exfalso. rewrite ?andb_false_r in He.
    destruct (p_pushed p); [|destruct (pushed_state s); [destruct (hold_active s); [destruct (hold_was_active s)|]|]];
      cbn in He; try tauto.
    destruct (pushed_state s); cbn in He; tauto.
Qed.

Lemma hold_clicks_apart c T h p1 mid p2 t0 :
  hold_cfg c -> actions_disjoint c -> no_override (h ++ p1 :: mid ++ [p2]) ->
  monotone t0 (h ++ p1 :: mid ++ [p2]) ->
  let s1 := fst (run (process c) (new_switch T) h) in
  let s2 := fst (run (process c) s1 (p1 :: mid)) in
  (exists e, In e (snd (process c s1 p1)) /\ is_hold_ev c e) ->
  (exists e, In e (snd (process c s2 p2)) /\ is_hold_ev c e) ->
  p_now p1 + T < p_now p2.
Proof.
  intros Hc Hd Hov Hm. cbn zeta. intros H1 H2.
  apply Forall_app in Hov. destruct Hov as [Hov0 Hov]. inv Hov.
  match goal with H : Forall _ (mid ++ _) |- _ => apply Forall_app in H; destruct H as [Hovm Hov2]; inv Hov2 end.
  apply monotone_app in Hm. destruct Hm as [_ Hm]. cbn in Hm. destruct Hm as [_ Hm].
  apply monotone_app in Hm. destruct Hm as [Hm _].
  set (s1 := fst (run (process c) (new_switch T) h)) in *.
  assert (interval (period_hold s1) = T) as Hi.
  { unfold s1. rewrite interval_run; auto. }
  match goal with H : p_override p1 = None |- _ => pose proof (hold_click_nonempty_fired c s1 p1 Hc H Hd H1) as [_ Hl];
     pose proof (last_reset_mono c s1 p1 (Z.min (last_reset (period_hold s1)) (p_now p1)) Hc H) as Hi1 end.
  assert (interval (period_hold (fst (process c s1 p1))) = T) as Hi2.
  { rewrite <- Hi. apply Hi1; lia. }
  rewrite run_cons in H2. cbn [fst] in H2.
  match goal with H : p_override p2 = None |- _ => pose proof (hold_click_nonempty_fired c _ p2 Hc H Hd H2) as [Hf _] end.
  rewrite interval_run, Hi2 in Hf by auto.
  pose proof (last_reset_run c (fst (process c s1 p1)) mid (p_now p1) Hc Hovm) as Hlr.
  rewrite Hl in Hlr. specialize (Hlr (Z.le_refl _) Hm). lia.
Qed.

(* ---- C28: override ---- *)


Lemma declined_run c s ps : declines ps -> hold_active s = false ->
  snd (run (process c) s ps) = override_edges (pushed_state s) ps.
Proof.
  intros Hd. revert s. induction ps as [|p ps IH]; intros s Hh; [reflexivity|].
  inv Hd. rewrite run_cons. cbn [snd override_edges].
  assert (process c s p = match pushed_state s, p_pushed p with
                          | false, true => (mkSwitch true false (hold_was_active s) (period_hold s), [OvPush])
                          | true, false => (mkSwitch false false (hold_was_active s) (period_hold s), [OvRelease])
                          | _, _ => (s, [])
                          end) as E.
  { unfold process, do_push. rewrite Hh, H1. destruct (p_pushed p), (pushed_state s); reflexivity. }
  rewrite E. destruct (p_pushed p) eqn:Ep, (pushed_state s) eqn:Es; cbn [fst snd]; rewrite IH; auto; cbn; rewrite ?Es; reflexivity.
Qed.

(* Histories in which nothing armed the hold detection end with it disarmed. *)
Lemma plain_hold_inactive acts r T ps :
  hold_active (fst (run (process (mkSwitchCfg acts [] r)) (new_switch T) ps)) = false.
Proof.
  induction ps as [|ps p IH] using rev_ind_snoc; [reflexivity|].
  rewrite run_snoc. cbn [fst]. set (s := fst (run _ _ ps)) in *. clearbody s.
  unfold process, do_push, do_release, release_normal, has_hold. cbn [sw_hold]. rewrite IH.
  destruct (p_pushed p); cbn [negb]; destruct (pushed_state s); destruct (p_override p) as [[|]|]; cbn; auto.
Qed.

(* An accepting override only adds its own events. *)

Lemma each_not_ov en f l : (forall a, forallb not_ov (f a) = true) -> filter not_ov (each en f l) = each en f l.
Proof.
  intros Hf. unfold each. induction l as [|a l IH]; cbn; auto. rewrite filter_app, IH. f_equal.
  destruct (en a); cbn; auto. specialize (Hf a). induction (f a) as [|e es IHe]; cbn in *; auto.
  apply andb_true_iff in Hf. destruct Hf as [H1 H2]. rewrite H1, IHe; auto.
Qed.

Lemma accepting_step c s p : p_override p = Some true ->
  fst (process c s p) = fst (process c s (erase p)) /\
  filter not_ov (snd (process c s p)) = snd (process c s (erase p)).
Proof.
  intros Hov. destruct p as [pp now en ov]. cbn in Hov. subst ov. unfold erase, process, do_push, do_release, release_normal, check_hold.
  cbn [p_pushed p_now p_enabled p_override].
  destruct (p_exceeded (period_hold s) now) as [r per] eqn:E.
  destruct pp; cbn [negb].
  - destruct (hold_active s) eqn:Eh, r, (pushed_state s) eqn:Eps, (has_hold c), (sw_repeat c);
      cbn [fst snd pushed_state hold_active hold_was_active period_hold filter not_ov]; rewrite ?Eps;
      cbn [fst snd pushed_state hold_active hold_was_active period_hold filter not_ov];
      split; auto; try (apply each_not_ov; intros; reflexivity).
  - destruct (pushed_state s); [|split; reflexivity].
    cbn [pushed_state hold_active hold_was_active period_hold].
    destruct (has_hold c) eqn:Ehh.
    + destruct (hold_active s) eqn:Eh; cbn [negb]; [|split; reflexivity].
      rewrite E. destruct r; [destruct (sw_repeat c)|destruct (hold_was_active s)]; cbn; split; auto;
        try (apply each_not_ov; intros; reflexivity).
    + cbn. split; auto. apply each_not_ov. intros; reflexivity.
Qed.

Lemma accepting_run c s ps : Forall (fun p => p_override p = Some true) ps ->
  filter not_ov (snd (run (process c) s ps)) = snd (run (process c) s (map erase ps)).
Proof.
  intros Hf. revert s. induction ps as [|p ps IH]; intros s; [reflexivity|]. inv Hf.
  cbn [map]. rewrite !run_cons. cbn [snd]. rewrite filter_app.
  destruct (accepting_step c s p H1) as [A B]. rewrite B, A. f_equal. rewrite IH; auto.
Qed.
