From Verif.Lib Require Import Base.
From Verif.Model Require Import Period Preview.
From Verif.Spec Require Import Preview.

Lemma pvrun_app a : forall b s, pvrun s (a ++ b) = let '(s1, e1) := pvrun s a in let '(s2, e2) := pvrun s1 b in (s2, e1 ++ e2).
Proof.
  induction a as [|o a IH]; intros b s; cbn [app pvrun]; [destruct (pvrun s b); reflexivity|].
  destruct (pvstep s o) as [s1 e1]. rewrite IH. destruct (pvrun s1 a) as [s2 e2]. destruct (pvrun s2 b) as [s3 e3]. rewrite app_assoc. reflexivity.
Qed.
Lemma pvrun_snoc a o s s' e : pvrun s (a ++ [o]) = (s', e) -> exists s1 e1 e2, pvrun s a = (s1, e1) /\ pvstep s1 o = (s', e2) /\ e = e1 ++ e2.
Proof.
  rewrite pvrun_app. destruct (pvrun s a) as [s1 e1]. cbn [pvrun]. destruct (pvstep s1 o) as [s2 e2] eqn:E. intros H. injection H as <- <-.
  exists s1, e1, e2. rewrite app_nil_r. repeat split; auto.
Qed.

(* ---- the label ---- *)

Lemma upd_over l : l_over (update_label l) = l_over l.
Proof. unfold update_label. destruct (l_over l) as [t|] eqn:E; [destruct (t =? 0)|]; try destruct (l_cb l); cbn; auto. Qed.
Lemma upd_rest l : l_cb (update_label l) = l_cb l /\ l_color (update_label l) = l_color l /\ l_init (update_label l) = l_init l /\ l_auto (update_label l) = l_auto l.
Proof. unfold update_label. destruct (l_over l) as [t|] eqn:E; [destruct (t =? 0)|]; try destruct (l_cb l) eqn:F; cbn; auto. Qed.
Lemma upd_text l t : l_over l = Some t -> t <> 0 -> l_text (update_label l) = t.
Proof. unfold update_label. intros -> H. destruct (t =? 0) eqn:E; [lia|reflexivity]. Qed.
Lemma upd_text_none l c : l_over l = None -> l_cb l = Some c -> l_text (update_label l) = c.
Proof. unfold update_label. intros -> ->. reflexivity. Qed.

Definition cleared (s : preview) : preview :=
  mkPreview (set_over (set_color (v_lbl s) (v_orig s)) None) None None false (v_bstate s) (v_bcolor s) (v_orig s) (v_clients s).

Lemma reset_now s now : pv_reset s true now = cleared s.
Proof. unfold pv_reset, cleared. destruct (v_period s); reflexivity. Qed.
Lemma cleared_idem s : cleared (cleared s) = cleared s.
Proof.
  unfold cleared. cbn [v_lbl v_orig v_bstate v_bcolor v_clients]. f_equal. unfold set_over, set_color, update_label. cbn.
  destruct (l_cb (v_lbl s)); reflexivity.
Qed.

Lemma cancel_cleared client now cl : forall s ev,
  fold_left (fun '(st, ev) c => if match client with Some x => (c =? x)%nat | None => false end then (st, ev) else (pv_reset st true now, ev ++ [c])) cl (s, ev)
  = (match others client cl with [] => s | _ => cleared s end, ev ++ others client cl).
Proof.
  induction cl as [|c cl IH]; intros s ev; cbn [fold_left others filter]; [rewrite app_nil_r; reflexivity|].
  destruct (match client with Some x => (c =? x)%nat | None => false end) eqn:E; cbn [negb]; rewrite IH; fold (others client cl).
  - reflexivity.
  - rewrite reset_now, <- app_assoc. cbn [app]. f_equal. destruct (others client cl); [reflexivity|apply cleared_idem].
Qed.
Lemma cancel_eq s client now : cancel_others s client now = (match others client (v_clients s) with [] => s | _ => cleared s end, others client (v_clients s)).
Proof. unfold cancel_others. rewrite cancel_cleared. reflexivity. Qed.

(* ---- facts kept by every operation ---- *)

Record kept (l0 : plabel) (s : preview) : Prop := mkKept {
  k_orig : v_orig s = l_init (v_lbl s);
  k_init : l_init (v_lbl s) = l_init l0;
  k_text : match l_over (v_lbl s) with Some t => t <> 0 -> l_text (v_lbl s) = t | None => True end
}.

Lemma cleared_kept l0 s : kept l0 s -> kept l0 (cleared s).
Proof.
  intros [A B C]. unfold cleared, set_over, set_color. split; cbn [v_orig v_lbl].
  - rewrite A. symmetry. apply (upd_rest (mkPlabel _ _ _ _ _ _)).
  - rewrite <- B. apply (upd_rest (mkPlabel _ _ _ _ _ _)).
  - rewrite upd_over. exact I.
Qed.

Lemma set_over_over l t : l_over (set_over l t) = t.
Proof. unfold set_over. rewrite upd_over. reflexivity. Qed.
Lemma set_over_rest l t : l_cb (set_over l t) = l_cb l /\ l_color (set_over l t) = l_color l /\ l_init (set_over l t) = l_init l /\ l_auto (set_over l t) = l_auto l.
Proof. unfold set_over. match goal with |- context [update_label ?x] => destruct (upd_rest x) as (-> & -> & -> & ->) end. auto. Qed.
Lemma set_over_text l t : t <> 0 -> l_text (set_over l (Some t)) = t.
Proof. intros H. unfold set_over. apply upd_text; auto. Qed.
Lemma set_over_none l c : l_cb l = Some c -> l_text (set_over l None) = c.
Proof. intros H. unfold set_over. apply upd_text_none; auto. Qed.

Lemma step_kept l0 s o s' e : pvstep s o = (s', e) -> kept l0 s -> kept l0 s'.
Proof.
  intros H K. destruct o as [t c st to bl bc now|im now|now|t|a]; cbn [pvstep] in H.
  - unfold pv_preview in H. rewrite cancel_eq in H. injection H as <- _.
    set (s1 := match others c (v_clients s) with [] => s | _ => cleared s end).
    assert (K1 : kept l0 s1) by (subst s1; destruct (others c (v_clients s)); auto using cleared_kept).
    clearbody s1. destruct K1 as [A B C]. destruct (set_over_rest (v_lbl s1) (Some t)) as (_ & _ & E & _). split; cbn [v_orig v_lbl]; try congruence.
    rewrite set_over_over. apply set_over_text.
  - injection H as <- _. unfold pv_reset. destruct (v_period s) as [p|]; [destruct im|]; try (apply cleared_kept; auto).
    destruct K as [A B C]. split; cbn [v_orig v_lbl set_color l_init l_over l_text]; auto.
  - injection H as <- _. unfold pv_update. destruct (l_over (v_lbl s)) as [t|] eqn:Eo; auto. destruct (t =? 0); auto.
    match goal with |- kept _ (let '(lbl, per) := ?x in _) => assert (L : l_init (fst x) = l_init (v_lbl s) /\ (fst x = v_lbl s \/ l_over (fst x) = None)) end.
    { destruct (v_period s) as [p|]; auto. destruct (v_stay s); auto. destruct (p_exceeded p now) as [[|] p']; cbn [fst]; auto.
      destruct (set_over_rest (v_lbl s) None) as (_ & _ & E & _). rewrite set_over_over. auto. }
    match goal with |- kept _ (let '(lbl, per) := ?x in _) => destruct x as [lbl per] end. cbn [fst] in L. destruct L as (L1 & L2). destruct K as [A B C]. rewrite Eo in C.
    destruct (v_blink s) as [b|]; [destruct (p_exceeded b now) as [[|] b']|]; split; cbn [v_orig v_lbl set_color l_init l_over l_text]; try congruence.
    all: destruct L2 as [-> | ->]; [rewrite Eo; auto|auto].
  - injection H as <- _. destruct K as [A B C]. destruct (l_cb (v_lbl s)) as [c|] eqn:E; [|split; cbn [put_lbl v_lbl v_orig]; auto].
    match goal with |- context [update_label ?x] => destruct (upd_rest x) as (_ & _ & E2 & _); set (lx := x) in * end.
    split; cbn [put_lbl v_lbl v_orig]; [rewrite E2; auto|rewrite E2; auto|].
    rewrite upd_over. cbn [lx l_over]. destruct (l_over (v_lbl s)) as [y|] eqn:Eo; auto. intros Hy. apply upd_text; auto.
  - injection H as <- _. destruct K as [A B C]. split; cbn [put_lbl v_lbl v_orig set_background set_color l_init l_over l_text]; auto.
Qed.

Lemma run_kept l0 ops : forall s s' e, pvrun s ops = (s', e) -> kept l0 s -> kept l0 s'.
Proof.
  induction ops as [|o ops IH]; intros s s' e H K; cbn [pvrun] in H; [injection H as <- _; auto|].
  destruct (pvstep s o) as [s1 e1] eqn:E1. destruct (pvrun s1 ops) as [s2 e2] eqn:E2. injection H as <- _. eapply IH; eauto. eapply step_kept; eauto.
Qed.
Lemma history_kept l0 ops s ev : history l0 ops s ev -> kept l0 s.
Proof. intros ((F1 & F2) & H). eapply run_kept; eauto. split; cbn [new_preview v_orig v_lbl]; auto. rewrite F1. auto. Qed.

(* ---- appearing ---- *)

Lemma preview_shows s t c st to bl bc now : t <> 0 -> previews (fst (pvstep s (PPreview t c st to bl bc now))) t.
Proof.
  intros H. cbn [pvstep]. unfold pv_preview. rewrite cancel_eq. cbn [fst]. unfold previews. cbn [v_lbl]. split; [apply set_over_over|apply set_over_text; auto].
Qed.

(* ---- staying and disappearing: passive operations ---- *)

(* state of a displayed preview during passive operations *)
Definition displayed (s : preview) (t : Z) (p : option period) (st : bool) : Prop := previews s t /\ v_period s = p /\ v_stay s = st.

Lemma passive_step s o t p st : t <> 0 -> displayed s t p st -> passive o = true ->
  (st = true \/ p = None \/ exists q, p = Some q /\ update_after (last_reset q + interval q) o = false) ->
  displayed (fst (pvstep s o)) t p st.
Proof.
  intros Ht ((O & T) & P & S) Hp Hq. destruct o as [? ? ? ? ? ? ?|? ?|now|x|a]; try discriminate; cbn [pvstep fst].
  - unfold pv_update. rewrite O. destruct (t =? 0) eqn:E; [lia|].
    assert (X : match v_period s with
        | Some p => if v_stay s then (v_lbl s, v_period s) else let '(x, p') := p_exceeded p now in (if x then set_over (v_lbl s) None else v_lbl s, Some p')
        | None => (v_lbl s, None) end = (v_lbl s, v_period s)).
    { destruct (v_period s) as [q|] eqn:Eq; auto. destruct (v_stay s) eqn:Es; auto. subst p st. destruct Hq as [?|[?|(q' & Eq' & Hq)]]; try discriminate. injection Eq' as <-.
      cbn [update_after] in Hq. unfold p_exceeded. rewrite Hq. reflexivity. }
    rewrite X. destruct (v_blink s) as [b|]; [destruct (p_exceeded b now) as [[|] b']|]; repeat split; cbn [v_lbl v_period v_stay set_color l_over l_text]; auto.
  - repeat split; cbn [put_lbl v_lbl v_period v_stay]; auto; destruct (l_cb (v_lbl s)); auto; [rewrite upd_over; auto|apply upd_text; auto].
  - repeat split; cbn [put_lbl v_lbl v_period v_stay set_background set_color l_over l_text]; auto.
Qed.

Lemma passive_run ops : forall s t p st, t <> 0 -> displayed s t p st -> forallb passive ops = true ->
  (st = true \/ p = None \/ exists q, p = Some q /\ existsb (update_after (last_reset q + interval q)) ops = false) ->
  displayed (fst (pvrun s ops)) t p st.
Proof.
  induction ops as [|o ops IH]; intros s t p st Ht D Hp Hq; cbn [pvrun fst]; auto. cbn [forallb] in Hp. apply andb_true_iff in Hp. destruct Hp as (Hp1 & Hp2).
  assert (D1 : displayed (fst (pvstep s o)) t p st).
  { apply passive_step; auto. destruct Hq as [?|[?|(q & E & Hq)]]; auto. right. right. exists q. split; auto. cbn [existsb] in Hq. apply orb_false_iff in Hq. tauto. }
  destruct (pvstep s o) as [s1 e1]. cbn [fst] in D1. specialize (IH s1 t p st Ht D1 Hp2). destruct (pvrun s1 ops) as [s2 e2]. cbn [fst] in *. apply IH.
  destruct Hq as [?|[?|(q & E & Hq)]]; auto. right. right. exists q. split; auto. cbn [existsb] in Hq. apply orb_false_iff in Hq. tauto.
Qed.

Lemma expire_step s o t q : t <> 0 -> displayed s t (Some q) false -> update_after (last_reset q + interval q) o = true -> l_over (v_lbl (fst (pvstep s o))) = None /\
  (forall c, l_cb (v_lbl (fst (pvstep s o))) = Some c -> l_text (v_lbl (fst (pvstep s o))) = c).
Proof.
  intros Ht ((O & T) & P & S) Hu. destruct o as [? ? ? ? ? ? ?|? ?|now|x|a]; try discriminate. cbn [update_after] in Hu. cbn [pvstep fst]. unfold pv_update.
  rewrite O, P, S. destruct (t =? 0) eqn:E; [lia|]. assert (X : p_exceeded q now = (true, mkPeriod (interval q) now)) by (unfold p_exceeded; rewrite Hu; reflexivity). rewrite X.
  assert (K : forall c, l_cb (set_over (v_lbl s) None) = Some c -> l_text (set_over (v_lbl s) None) = c).
  { intros c Hc. apply set_over_none. rewrite <- Hc. symmetry. apply set_over_rest. }
  destruct (v_blink s) as [b|]; [destruct (p_exceeded b now) as [[|] b']|]; cbn [v_lbl set_color l_over l_cb l_text]; rewrite set_over_over; auto.
Qed.

Lemma hidden_step s o : passive o = true -> no_preview s -> no_preview (fst (pvstep s o)).
Proof.
  intros Hp (O & T). destruct o as [? ? ? ? ? ? ?|? ?|now|x|a]; try discriminate; cbn [pvstep fst]; unfold no_preview.
  - unfold pv_update. rewrite O. auto.
  - cbn [put_lbl v_lbl]. destruct (l_cb (v_lbl s)) as [c|] eqn:E.
    + rewrite upd_over. cbn [l_over]. split; auto. intros y Hy. match type of Hy with l_cb (update_label ?lx) = _ => destruct (upd_rest lx) as (E2 & _); rewrite E2 in Hy; cbn [l_cb] in Hy end.
      injection Hy as <-. apply upd_text_none; auto.
    + split; auto. rewrite E. discriminate.
  - cbn [put_lbl v_lbl set_background set_color l_over l_cb l_text]. auto.
Qed.
Lemma hidden_run ops : forall s, forallb passive ops = true -> no_preview s -> no_preview (fst (pvrun s ops)).
Proof.
  induction ops as [|o ops IH]; intros s Hp H; cbn [pvrun fst]; auto. cbn [forallb] in Hp. apply andb_true_iff in Hp. destruct Hp as (Hp1 & Hp2).
  pose proof (hidden_step s o Hp1 H) as H1. destruct (pvstep s o) as [s1 e1]. specialize (IH s1 Hp2 H1). destruct (pvrun s1 ops). exact IH.
Qed.

Lemma expire_run ops : forall s t q, t <> 0 -> displayed s t (Some q) false -> forallb passive ops = true -> existsb (update_after (last_reset q + interval q)) ops = true ->
  no_preview (fst (pvrun s ops)).
Proof.
  induction ops as [|o ops IH]; intros s t q Ht D Hp He; [discriminate|]. cbn [forallb] in Hp. apply andb_true_iff in Hp. destruct Hp as (Hp1 & Hp2).
  cbn [existsb] in He. cbn [pvrun]. destruct (update_after (last_reset q + interval q) o) eqn:Eu.
  - pose proof (expire_step s o t q Ht D Eu) as H1. destruct (pvstep s o) as [s1 e1]. pose proof (hidden_run ops s1 Hp2 H1) as H2. destruct (pvrun s1 ops). exact H2.
  - assert (D1 : displayed (fst (pvstep s o)) t (Some q) false) by (apply passive_step; auto; right; right; exists q; auto).
    destruct (pvstep s o) as [s1 e1]. cbn [orb] in He. specialize (IH s1 t q Ht D1 Hp2 He). destruct (pvrun s1 ops). exact IH.
Qed.

Lemma after_preview s t c st to bl bc now : t <> 0 ->
  displayed (fst (pvstep s (PPreview t c st to bl bc now))) t (if to =? 0 then None else Some (mkPeriod to now)) st.
Proof.
  intros Ht. split; [apply preview_shows; auto|]. cbn [pvstep]. unfold pv_preview. rewrite cancel_eq. cbn [fst v_period v_stay]. split; auto.
  destruct (to =? 0); auto. unfold p_reset. destruct (v_period _); reflexivity.
Qed.

Lemma lifetime s t c st to bl bc now ops : t <> 0 -> forallb passive ops = true ->
  let s' := fst (pvrun s (PPreview t c st to bl bc now :: ops)) in
  if st || (to =? 0) || negb (existsb (update_after (now + to)) ops) then previews s' t else no_preview s'.
Proof.
  intros Ht Hp s'. subst s'. pose proof (after_preview s t c st to bl bc now Ht) as D. cbn [pvrun].
  destruct (pvstep s (PPreview t c st to bl bc now)) as [s1 e1]. cbn [fst] in D.
  destruct st; cbn [orb].
  - pose proof (passive_run ops s1 t _ true Ht D Hp (or_introl eq_refl)) as (R & _). destruct (pvrun s1 ops). exact R.
  - destruct (to =? 0) eqn:E; cbn [orb].
    + pose proof (passive_run ops s1 t _ false Ht D Hp (or_intror (or_introl eq_refl))) as (R & _). destruct (pvrun s1 ops). exact R.
    + destruct (existsb (update_after (now + to)) ops) eqn:Eu; cbn [negb].
      * pose proof (expire_run ops s1 t _ Ht D Hp Eu) as R. destruct (pvrun s1 ops). exact R.
      * assert (R : displayed (fst (pvrun s1 ops)) t (Some (mkPeriod to now)) false) by (apply passive_run; auto; right; right; eexists; split; [reflexivity|exact Eu]).
        destruct R as (R & _). destruct (pvrun s1 ops). exact R.
Qed.

(* ---- reset ---- *)

Lemma reset_clears s im now : v_period s = None \/ im = true -> no_preview (fst (pvstep s (PReset im now))).
Proof.
  intros H. cbn [pvstep fst]. assert (E : pv_reset s im now = cleared s).
  { unfold pv_reset, cleared. destruct (v_period s); auto. destruct im; auto. destruct H; discriminate. }
  rewrite E. unfold no_preview, cleared. cbn [v_lbl]. rewrite set_over_over. split; auto. intros c Hc. apply set_over_none. rewrite <- Hc. symmetry. apply set_over_rest.
Qed.

Lemma reset_color l0 s im now : kept l0 s -> l_color (v_lbl (fst (pvstep s (PReset im now)))) = normal_color (v_lbl (fst (pvstep s (PReset im now)))).
Proof.
  intros [A B C]. cbn [pvstep fst]. unfold pv_reset, normal_color. rewrite A.
  destruct (v_period s) as [p|]; [destruct im|]; cbn [v_lbl].
  all: try match goal with |- context [set_over ?l None] => destruct (set_over_rest l None) as (_ & -> & -> & ->) end; reflexivity.
Qed.

(* the timer a displayed preview runs on: restarted by the last preview, or by a later reset which is not immediate *)
Lemma later s t c st to bl bc now ops1 now2 ops2 : t <> 0 -> to <> 0 -> forallb passive ops1 = true -> forallb passive ops2 = true ->
  (st = true \/ existsb (update_after (now + to)) ops1 = false) ->
  let s' := fst (pvrun s (PPreview t c st to bl bc now :: ops1 ++ PReset false now2 :: ops2)) in
  if existsb (update_after (now2 + to)) ops2 then no_preview s' else previews s' t.
Proof.
  intros Ht Hto P1 P2 Hq s'. subst s'. pose proof (after_preview s t c st to bl bc now Ht) as D. cbn [pvrun].
  destruct (pvstep s (PPreview t c st to bl bc now)) as [s1 e1]. cbn [fst] in D. destruct (to =? 0) eqn:E; [lia|].
  assert (D1 : displayed (fst (pvrun s1 ops1)) t (Some (mkPeriod to now)) st).
  { apply passive_run; auto. destruct Hq as [?|Hq]; auto. right. right. eexists. split; [reflexivity|exact Hq]. }
  rewrite pvrun_app. destruct (pvrun s1 ops1) as [s2 e2]. cbn [fst] in D1. cbn [pvrun pvstep].
  assert (D2 : displayed (pv_reset s2 false now2) t (Some (mkPeriod to now2)) false).
  { destruct D1 as ((O & T) & P & S). unfold pv_reset. rewrite P. repeat split; cbn [v_lbl set_color l_over l_text]; auto. }
  destruct (existsb (update_after (now2 + to)) ops2) eqn:Eu.
  - pose proof (expire_run ops2 _ t _ Ht D2 P2 Eu) as R. destruct (pvrun (pv_reset s2 false now2) ops2). exact R.
  - assert (R : displayed (fst (pvrun (pv_reset s2 false now2) ops2)) t (Some (mkPeriod to now2)) false) by (apply passive_run; auto; right; right; eexists; split; [reflexivity|exact Eu]).
    destruct R as (R & _). destruct (pvrun (pv_reset s2 false now2) ops2). exact R.
Qed.

(* ---- clients ---- *)

Lemma step_clients s o : v_clients (fst (pvstep s o)) = users [o] (v_clients s).
Proof.
  destruct o as [t c st to bl bc now|im now|now|t|a]; cbn [pvstep users].
  - unfold pv_preview. rewrite cancel_eq. cbn [fst v_clients].
    assert (E : v_clients (match others c (v_clients s) with [] => s | _ => cleared s end) = v_clients s) by (destruct (others c (v_clients s)); reflexivity).
    rewrite E. destruct c; reflexivity.
  - cbn [fst]. unfold pv_reset. destruct (v_period s); [destruct im|]; reflexivity.
  - cbn [fst]. unfold pv_update. destruct (l_over (v_lbl s)) as [t|]; auto. destruct (t =? 0); auto.
    match goal with |- context [let '(lbl, per) := ?x in _] => destruct x as [lbl per] end.
    destruct (v_blink s) as [b|]; [destruct (p_exceeded b now) as [[|] b']|]; reflexivity.
  - reflexivity.
  - reflexivity.
Qed.
Lemma users_app a : forall b seen, users (a ++ b) seen = users b (users a seen).
Proof. induction a as [|o a IH]; intros b seen; auto. destruct o as [? [c|] ? ? ? ? ?|? ?|?|?|?]; cbn [app users]; apply IH. Qed.
Lemma run_clients ops : forall s, v_clients (fst (pvrun s ops)) = users ops (v_clients s).
Proof.
  induction ops as [|o ops IH]; intros s; auto. cbn [pvrun]. pose proof (step_clients s o) as E. destruct (pvstep s o) as [s1 e1]. cbn [fst] in E.
  specialize (IH s1). destruct (pvrun s1 ops) as [s2 e2]. cbn [fst] in *. rewrite IH, E. change (o :: ops) with ([o] ++ ops). rewrite users_app. reflexivity.
Qed.
Lemma cancelled l0 ops s ev t c st to bl bc now : history l0 ops s ev ->
  snd (pvstep s (PPreview t c st to bl bc now)) = map PCancel (others c (users ops [])).
Proof.
  intros (_ & H). cbn [pvstep]. unfold pv_preview. rewrite cancel_eq. cbn [snd].
  pose proof (run_clients ops (new_preview l0)) as E. rewrite H in E. cbn [fst] in E. rewrite E. reflexivity.
Qed.
Lemma users_nodup ops : forall seen, NoDup seen -> NoDup (users ops seen).
Proof.
  induction ops as [|o ops IH]; intros seen H; auto. destruct o as [? [c|] ? ? ? ? ?|? ?|?|?|?]; cbn [users]; auto.
  apply IH. destruct (existsb (Nat.eqb c) seen) eqn:E; auto.
  assert (N : ~ In c seen). { intros Hin. assert (existsb (Nat.eqb c) seen = true); [|congruence]. apply existsb_exists. exists c. split; auto. apply Nat.eqb_refl. }
  clear IH E. induction seen as [|x seen IHs]; cbn [app]; [constructor; auto; constructor|].
  inversion H; subst. constructor.
  - rewrite in_app_iff. intros [?|[->|[]]]; auto. apply N. left. reflexivity.
  - apply IHs; auto. intros Hin. apply N. right. exact Hin.
Qed.
Lemma users_in ops : forall seen c, In c (users ops seen) <-> In c seen \/ exists t st to bl bc now, In (PPreview t (Some c) st to bl bc now) ops.
Proof.
  induction ops as [|o ops IH]; intros seen c; cbn [users].
  - split; auto. intros [?|(t & st & to & bl & bc & now & [])]; auto.
  - destruct o as [t [x|] st to bl bc now|im now|now|t|a].
    1: { rewrite IH. destruct (existsb (Nat.eqb x) seen) eqn:E.
      - apply existsb_exists in E. destruct E as (y & Hy & Ey). apply Nat.eqb_eq in Ey. subst y. split.
        + intros [?|(t' & st' & to' & bl' & bc' & now' & ?)]; auto. right. exists t', st', to', bl', bc', now'. right. auto.
        + intros [?|(t' & st' & to' & bl' & bc' & now' & [F|?])]; auto; [injection F as _ <- _ _ _ _ _; auto|]. right. exists t', st', to', bl', bc', now'. auto.
      - rewrite in_app_iff. cbn [In]. split.
        + intros [[?|[<-|[]]]|(t' & st' & to' & bl' & bc' & now' & ?)]; auto; right; [exists t, st, to, bl, bc, now; auto|]. exists t', st', to', bl', bc', now'. auto.
        + intros [?|(t' & st' & to' & bl' & bc' & now' & [F|?])]; auto; [injection F as _ <- _ _ _ _ _; auto|]. right. exists t', st', to', bl', bc', now'. auto. }
    all: rewrite IH; split.
    all: intros [?|(t' & st' & to' & bl' & bc' & now' & H)]; auto; right; exists t', st', to', bl', bc', now'; cbn [In] in *; auto.
    all: destruct H as [H|H]; [discriminate|auto].
Qed.

(* ---- colour ---- *)

Definition calm (bl : nat -> Z) (s : preview) : Prop :=
  match v_blink s with
  | None => l_color (v_lbl s) = normal_color (v_lbl s)
  | Some _ => v_stay s = true /\ l_over (v_lbl s) <> None /\ exists c, In c (v_clients s) /\ bl c <> 0
  end.

Lemma normal_set_over l t : normal_color (set_over l t) = normal_color l /\ l_color (set_over l t) = l_color l.
Proof. unfold normal_color. destruct (set_over_rest l t) as (_ & -> & -> & ->). auto. Qed.

Lemma cleared_calm l0 s : kept l0 s -> l_color (v_lbl (cleared s)) = normal_color (v_lbl (cleared s)).
Proof.
  intros [A B C]. unfold cleared. cbn [v_lbl]. rewrite (proj1 (normal_set_over _ _)), (proj2 (normal_set_over _ _)). unfold set_color, normal_color. cbn. rewrite A. reflexivity.
Qed.

Lemma step_calm bl l0 s o s' e : blinks_as bl o = true -> pvstep s o = (s', e) -> kept l0 s -> calm bl s -> calm bl s'.
Proof.
  intros Hb H K Q. destruct o as [t c st to b bc now|im now|now|t|a]; cbn [pvstep] in H.
  - unfold pv_preview in H. rewrite cancel_eq in H. injection H as <- _. unfold calm. cbn [v_blink]. cbn [blinks_as] in Hb.
    destruct (b =? 0) eqn:Eb.
    + cbn [v_lbl]. rewrite (proj1 (normal_set_over _ _)), (proj2 (normal_set_over _ _)). destruct (others c (v_clients s)) as [|x r] eqn:Eo; [|apply (cleared_calm l0); auto].
      unfold calm in Q. destruct (v_blink s) as [p|]; auto. destruct Q as (_ & _ & y & Hy & Hby). exfalso.
      assert (Hin : In y (others c (v_clients s))); [|rewrite Eo in Hin; destruct Hin].
      unfold others. apply filter_In. split; auto. destruct c as [x|]; auto. destruct (y =? x)%nat eqn:E; auto. apply Nat.eqb_eq in E. subst x. lia.
    + cbn [v_stay v_lbl v_clients]. destruct c as [x|]; [|lia]. assert (Hx : bl x <> 0) by lia. assert (Hs : st = true) by (destruct st; auto; lia). subst st.
      split; auto. split; [rewrite set_over_over; discriminate|]. exists x. split; auto.
      match goal with |- In x (if ?b then ?u else _) => destruct b eqn:E; [|apply in_or_app; right; left; reflexivity] end.
      apply existsb_exists in E. destruct E as (y & Hy & Ey). apply Nat.eqb_eq in Ey. subst y. auto.
  - injection H as <- _. unfold calm, pv_reset. destruct (v_period s) as [p|]; [destruct im|]; cbn [v_blink v_lbl]; try (apply (cleared_calm l0 s); auto).
    unfold normal_color, set_color. cbn. destruct K as [A B C]. rewrite A. reflexivity.
  - injection H as <- _. unfold pv_update. destruct (l_over (v_lbl s)) as [t|] eqn:Eo; [|exact Q]. destruct (t =? 0) eqn:Et; [exact Q|]. unfold calm in *.
    destruct (v_blink s) as [b|] eqn:Eb.
    + destruct Q as (Qs & Qo & Qc). rewrite Qs. destruct (v_period s); destruct (p_exceeded b now) as [[|] b']; cbn [v_blink v_stay v_lbl v_clients set_color l_over]; rewrite ?Eo; (split; [auto|split; [discriminate|exact Qc]]).
    + match goal with |- context [let '(lbl, per) := ?x in _] => assert (L : l_color (fst x) = normal_color (fst x)) end.
      { destruct (v_period s) as [p|]; auto. destruct (v_stay s); auto. destruct (p_exceeded p now) as [[|] p']; cbn [fst]; auto.
        rewrite (proj1 (normal_set_over _ _)), (proj2 (normal_set_over _ _)). auto. }
      match goal with |- context [let '(lbl, per) := ?x in _] => destruct x as [lbl per] end. cbn [fst v_blink v_lbl] in *. auto.
  - injection H as <- _. unfold calm in *. cbn [put_lbl v_blink v_lbl v_stay v_clients].
    destruct (l_cb (v_lbl s)); [|exact Q]. destruct (v_blink s).
    + rewrite upd_over. auto.
    + unfold normal_color in *. match goal with |- context [update_label ?lx] => destruct (upd_rest lx) as (_ & -> & -> & ->) end. auto.
  - injection H as <- _. unfold calm in *. cbn [put_lbl v_blink v_lbl v_stay v_clients]. destruct (v_blink s); auto.
Qed.

Lemma run_calm bl l0 ops : forall s s' e, forallb (blinks_as bl) ops = true -> pvrun s ops = (s', e) -> kept l0 s -> calm bl s -> calm bl s'.
Proof.
  induction ops as [|o ops IH]; intros s s' e Hb H K Q; cbn [pvrun] in H; [injection H as <- _; auto|].
  cbn [forallb] in Hb. apply andb_true_iff in Hb. destruct Hb as (Hb1 & Hb2).
  destruct (pvstep s o) as [s1 e1] eqn:E1. destruct (pvrun s1 ops) as [s2 e2] eqn:E2. injection H as <- _. eapply IH; eauto; [eapply step_kept|eapply step_calm]; eauto.
Qed.

Lemma color_back bl l0 ops s ev : history l0 ops s ev -> forallb (blinks_as bl) ops = true -> no_preview s -> l_color (v_lbl s) = normal_color (v_lbl s).
Proof.
  intros ((F1 & F2) & H) Hb (N & _).
  assert (K : kept l0 (new_preview l0)) by (split; cbn [new_preview v_orig v_lbl]; auto; rewrite F1; auto).
  assert (Q : calm bl s). { eapply run_calm; eauto. }
  unfold calm in Q. destruct (v_blink s); auto. destruct Q as (_ & Q & _). contradiction.
Qed.
