From Verif.Lib Require Import Base.
From Verif.Model Require Import Midi Label.
From Verif.Spec Require Import Label.
From Coq Require Import String DecimalString DecimalZ.
Local Open Scope Z_scope.
Local Open Scope list_scope.

Lemma rgb_eqb_eq a b : rgb_eqb a b = true <-> a = b.
Proof.
  destruct a as [[r g] u], b as [[r' g'] u']. unfold rgb_eqb. rewrite !andb_true_iff, !Z.eqb_eq. split.
  - intros [[-> ->] ->]. reflexivity.
  - intros E. injection E as -> -> ->. auto.
Qed.
Lemma rgbs_eqb_eq a : forall b, rgbs_eqb a b = true <-> a = b.
Proof.
  induction a as [|x a IH]; intros [|y b]; cbn; try (split; congruence).
  rewrite andb_true_iff, rgb_eqb_eq, IH. split; [intros [-> ->]; auto | intros E; injection E as -> ->; auto].
Qed.
Lemma back_eqb_eq a b : back_eqb a b = true <-> a = b.
Proof.
  destruct a, b; cbn; try (split; congruence).
  - rewrite rgb_eqb_eq. split; congruence.
  - rewrite rgbs_eqb_eq. split; congruence.
Qed.

Lemma lrun_snoc w h o : forall l, lrun w l (h ++ [o]) =
  match lrun w l h with
  | Raise => Raise
  | Ok (l1, e1) => match lstep w l1 o with Raise => Raise | Ok (l2, e2) => Ok (l2, e1 ++ e2) end
  end.
Proof.
  induction h as [|x h IH]; intros l; cbn -[lstep].
  - destruct (lstep w l o) as [[l2 e2]|]; cbn; auto. rewrite app_nil_r. reflexivity.
  - destruct (lstep w l x) as [[l1 e1]|]; [|reflexivity]. rewrite IH.
    destruct (lrun w l1 h) as [[l2 e2]|]; [|reflexivity].
    destruct (lstep w l2 o) as [[l3 e3]|]; [|reflexivity]. rewrite app_assoc. reflexivity.
Qed.
Lemma lrun_snoc_ok w l h o l2 e : lrun w l (h ++ [o]) = Ok (l2, e) ->
  exists l1 e1 e2, lrun w l h = Ok (l1, e1) /\ lstep w l1 o = Ok (l2, e2) /\ e = e1 ++ e2.
Proof.
  rewrite lrun_snoc. destruct (lrun w l h) as [[l1 e1]|]; [|discriminate].
  destruct (lstep w l1 o) as [[l3 e2]|] eqn:E; [|discriminate]. intros H. injection H as <- <-.
  exists l1, e1, e2. auto.
Qed.

Lemma wrapped_wraps w t : wrapped w t = wraps w t.
Proof. destruct t; reflexivity. Qed.
Lemma draw_app a b : screen_of (a ++ b) = fold_left draw b (screen_of a).
Proof. unfold screen_of. apply fold_left_app. Qed.

Lemma low_of_app a b d : low_of (a ++ b) d = low_of b (low_of a d).
Proof. revert d. induction a as [|x a IH]; intros d; cbn; [reflexivity|]. destruct x; apply IH. Qed.
Lemma over_of_app a b d : over_of (a ++ b) d = over_of b (over_of a d).
Proof. revert d. induction a as [|x a IH]; intros d; cbn; [reflexivity|]. destruct x; apply IH. Qed.
Lemma last_back_app a b d : last_back (a ++ b) d = last_back b (last_back a d).
Proof. revert d. induction a as [|x a IH]; intros d; cbn; [reflexivity|]. destruct x; apply IH. Qed.

(* What the setters do. *)
Lemma set_color_inv l c l' e : set_color l c = Ok (l', e) ->
  exists x, l' = mkLabel (l_text l) (Some x) (l_back l) (l_init l) (l_over l) (l_on l) (l_low l) /\
    match c with Some y => x = y | None => determine_text_color (l_back l) = Ok x end /\
    ((e = [] /\ (l_color l = Some x \/ l_on l = false)) \/ (l_on l = true /\ e = [DColor x] /\ l_color l <> Some x)).
Proof.
  unfold set_color. intros H.
  assert (K : exists x, match c with Some x => Ok x | None => determine_text_color (l_back l) end = Ok x /\
                match c with Some y => x = y | None => determine_text_color (l_back l) = Ok x end).
  { destruct c as [y|]; [eexists; split; reflexivity|]. destruct (determine_text_color (l_back l)) as [x|]; [eexists; split; reflexivity|discriminate]. }
  destruct K as (x & K1 & K2). rewrite K1 in H. exists x.
  destruct (l_color l) as [y|] eqn:EC.
  - destruct (rgb_eqb y x) eqn:E.
    + injection H as <- <-. apply rgb_eqb_eq in E. subst y. split; [|split; [exact K2|left; auto]].
      destruct l; cbn in *; congruence.
    + injection H as <- <-. split; [reflexivity|]. split; [exact K2|].
      assert (y <> x) by (intros ->; rewrite (proj2 (rgb_eqb_eq x x) eq_refl) in E; discriminate).
      destruct (l_on l); [right; repeat split; congruence|left; auto].
  - injection H as <- <-. split; [reflexivity|]. split; [exact K2|].
    destruct (l_on l); [right; repeat split; congruence|left; auto].
Qed.

Lemma set_back_inv l c l' e : set_back l c = Ok (l', e) ->
  (is_none c = is_none (l_back l)) /\
  ((c = l_back l /\ l' = l /\ e = []) \/
   (exists b l1 e1, c = Some b /\ c <> l_back l /\ set_color (mkLabel (l_text l) (l_color l) (Some b) (l_init l) (l_over l) (l_on l) (l_low l)) (l_init l) = Ok (l1, e1) /\
      l' = l1 /\ e = (if l_on l then [DBack b] else []) ++ e1)).
Proof.
  unfold set_back. destruct (l_back l) as [a|] eqn:EB, c as [b|]; try discriminate.
  - destruct (back_eqb a b) eqn:E.
    + intros H. injection H as <- <-. apply back_eqb_eq in E. subst b. split; [reflexivity|]. left. auto.
    + destruct (set_color _ _) as [[l1 e1]|] eqn:ES; [|discriminate]. intros H. injection H as <- <-. split; [reflexivity|]. right.
      exists b, l1, e1. repeat split; auto. intros K. injection K as ->. rewrite (proj2 (back_eqb_eq a a) eq_refl) in E. discriminate.
  - intros H. injection H as <- <-. split; [reflexivity|]. left. auto.
Qed.

Lemma set_text_inv w l t l' e : set_text w l t = (l', e) ->
  let t1 := if l_on l && l_low l then warning else t in
  l' = mkLabel t1 (l_color l) (l_back l) (l_init l) (l_over l) (l_on l) (l_low l) /\
  ((e = [] /\ (l_text l = t1 \/ l_on l = false)) \/ (l_on l = true /\ e = [DText (wrapped w t1)] /\ l_text l <> t1)).
Proof.
  unfold set_text. cbv zeta. set (t1 := if l_on l && l_low l then warning else t). intros H.
  destruct (String.eqb (l_text l) t1) eqn:E.
  - injection H as <- <-. apply String.eqb_eq in E. split; [|left; auto]. rewrite <- E. destruct l; reflexivity.
  - injection H as <- <-. split; [reflexivity|]. apply String.eqb_neq in E. destruct (l_on l); [right; auto|left; auto].
Qed.

(* update_label is nothing or one assignment of a text *)
Lemma update_label_cases w l cb :
  (exists t, (l_over l = t /\ t <> ""%string \/ l_over l = ""%string /\ cb = Some t) /\ update_label w l cb = set_text w l t) \/
  (l_over l = ""%string /\ cb = None /\ update_label w l cb = (l, [])).
Proof.
  unfold update_label. destruct (String.eqb (l_over l) "") eqn:E; cbn.
  - apply String.eqb_eq in E. destruct cb as [t|]; [left; exists t; auto|right; auto].
  - apply String.eqb_neq in E. left. exists (l_over l). auto.
Qed.

(* The screen shows what the label believes it shows. *)
Definition synced (w : string -> string) (l : label) (s : option screen) : Prop :=
  if l_on l then s = Some (mkScreen (wraps w (l_text l)) (l_color l) (l_back l)) /\ l_color l <> None else s = None.

Lemma synced_color w l s c l' e : synced w l s -> set_color l c = Ok (l', e) -> synced w l' (fold_left draw e s).
Proof.
  intros HS H. apply set_color_inv in H. destruct H as (x & -> & _ & H). unfold synced in *. cbn.
  destruct (l_on l).
  - destruct HS as [-> HN]. split; [|discriminate]. destruct H as [[-> [H|H]]|(_ & -> & _)]; cbn; congruence.
  - destruct H as [[-> _]|(H & _)]; [cbn; exact HS|discriminate].
Qed.
Lemma synced_text w l s t l' e : synced w l s -> set_text w l t = (l', e) -> synced w l' (fold_left draw e s).
Proof.
  intros HS H. apply set_text_inv in H. cbv zeta in H. destruct H as (-> & H). unfold synced in *. cbn [l_on l_text l_color l_back].
  destruct (l_on l).
  - destruct HS as [-> HN]. split; [|exact HN]. destruct H as [[-> [H|H]]|(_ & -> & _)]; cbn [fold_left draw]; [rewrite H; reflexivity|discriminate|].
    cbn [s_color s_back]. rewrite wrapped_wraps. reflexivity.
  - destruct H as [[-> _]|(H & _)]; [cbn; exact HS|discriminate].
Qed.
Lemma synced_step w l s o l' e : synced w l s -> lstep w l o = Ok (l', e) -> synced w l' (fold_left draw e s).
Proof.
  intros HS H. destruct o as [t|c|c|t|cb| |b]; cbn [lstep] in H.
  - injection H as H. eapply synced_text; eauto.
  - eapply synced_color; eauto.
  - apply set_back_inv in H. destruct H as (_ & [(_ & -> & ->)|(b & l1 & e1 & -> & _ & HC & -> & ->)]).
    + exact HS.
    + rewrite fold_left_app. eapply synced_color; [|exact HC]. unfold synced in *. cbn [l_on l_text l_color l_back].
      destruct (l_on l); cbn; [|exact HS]. destruct HS as [-> HN]. cbn. auto.
  - injection H as <- <-. exact HS.
  - injection H as H. destruct (update_label_cases w l cb) as [(t & _ & E)|(_ & _ & E)]; rewrite E in H.
    + eapply synced_text; eauto.
    + injection H as <- <-. exact HS.
  - unfold label_init in H. unfold synced in HS |- *. destruct (l_on l) eqn:EO; [injection H as <- <-; rewrite EO; exact HS|].
    destruct (set_color l (l_color l)) as [[l1 e1]|] eqn:ES; [|discriminate]. injection H as <- <-.
    apply set_color_inv in ES. destruct ES as (x & -> & _). cbn. split; [|discriminate]. rewrite wrapped_wraps. reflexivity.
  - injection H as <- <-. exact HS.
Qed.
Lemma synced_run w t c b h l e : lrun w (new_label t c b) h = Ok (l, e) -> synced w l (screen_of e).
Proof.
  revert l e. induction h as [|h o IH] using rev_ind_snoc; intros l e H.
  - injection H as <- <-. reflexivity.
  - apply lrun_snoc_ok in H. destruct H as (l1 & e1 & e2 & H1 & H2 & ->). rewrite draw_app. eapply synced_step; [|exact H2]. apply IH. exact H1.
Qed.

(* The other attributes are functions of the history. *)
Lemma step_attrs w l o l' e : lstep w l o = Ok (l', e) ->
  l_init l' = l_init l /\ l_low l' = (match o with LLow b => b | _ => l_low l end) /\ l_over l' = (match o with LOver t => t | _ => l_over l end) /\
  l_on l' = (match o with LInit => true | _ => l_on l end) /\ l_back l' = (match o with LBack b => b | _ => l_back l end).
Proof.
  intros H. destruct o as [t|c|c|t|cb| |b]; cbn [lstep] in H.
  - injection H as H. apply set_text_inv in H. destruct H as (-> & _). cbn. auto.
  - apply set_color_inv in H. destruct H as (x & -> & _). cbn. auto.
  - apply set_back_inv in H. destruct H as (_ & [(-> & -> & _)|(b & l1 & e1 & -> & _ & HC & -> & _)]); [auto 6|].
    apply set_color_inv in HC. destruct HC as (x & -> & _). cbn. auto 6.
  - injection H as <- _. cbn. auto 6.
  - injection H as H. destruct (update_label_cases w l cb) as [(t & _ & E)|(_ & _ & E)]; rewrite E in H.
    + apply set_text_inv in H. destruct H as (-> & _). cbn. auto.
    + injection H as <- _. auto 6.
  - unfold label_init in H. destruct (l_on l) eqn:EO; [injection H as <- _; auto 6|].
    destruct (set_color l (l_color l)) as [[l1 e1]|] eqn:ES; [|discriminate]. injection H as <- _.
    apply set_color_inv in ES. destruct ES as (x & -> & _). cbn. auto 6.
  - injection H as <- _. cbn. auto 6.
Qed.
Lemma run_attrs w t c b h l e : lrun w (new_label t c b) h = Ok (l, e) ->
  l_init l = c /\ l_low l = low_of h false /\ l_over l = over_of h "" /\ (l_on l = true <-> shown h) /\ l_back l = last_back h b.
Proof.
  revert l e. induction h as [|h o IH] using rev_ind_snoc; intros l e H.
  - injection H as <- <-. cbn. repeat split; auto; try discriminate; intros [].
  - apply lrun_snoc_ok in H. destruct H as (l1 & e1 & e2 & H1 & H2 & ->). apply IH in H1. destruct H1 as (A1 & A2 & A3 & A4 & A5).
    apply step_attrs in H2. destruct H2 as (B1 & B2 & B3 & B4 & B5).
    rewrite low_of_app, over_of_app, last_back_app. rewrite B1, B2, B3, B5, A1, A2, A3, A5. unfold shown in *.
    split; [reflexivity|]. split; [destruct o; reflexivity|]. split; [destruct o; reflexivity|]. split; [|destruct o; reflexivity].
    rewrite B4, in_app_iff. cbn. destruct o; rewrite ?A4; split; intuition congruence.
Qed.

(* --- texts --- *)

Lemma snoc_split {A} (h : list A) x k1 o k2 : h ++ [x] = k1 ++ o :: k2 -> (k2 = [] /\ k1 = h /\ o = x) \/ (exists k, k2 = k ++ [x] /\ h = k1 ++ o :: k).
Proof.
  intros E. destruct k2 as [|k2 y] using rev_ind_snoc.
  - left. apply app_inj_tail in E. destruct E as [-> ->]. auto.
  - right. exists k2. split.
    + change (k1 ++ o :: k2 ++ [y]) with (k1 ++ (o :: k2) ++ [y]) in E. rewrite app_assoc in E. apply app_inj_tail in E. destruct E as [_ ->]. reflexivity.
    + change (k1 ++ o :: k2 ++ [y]) with (k1 ++ (o :: k2) ++ [y]) in E. rewrite app_assoc in E. apply app_inj_tail in E. destruct E as [-> _]. reflexivity.
Qed.

Lemma last_written_new t0 h o t : writes h o t -> last_written t0 (h ++ [o]) t.
Proof. intros W. left. exists h, o, []. split; [reflexivity|]. split; [exact W|]. intros k1 o' k2 t' E. destruct k1; discriminate. Qed.
Lemma last_written_keep t0 h o t : last_written t0 h t -> (forall t', ~ writes h o t') -> last_written t0 (h ++ [o]) t.
Proof.
  intros [(h1 & x & h2 & -> & W & HN)|[-> HN]] NW.
  - left. exists h1, x, (h2 ++ [o]). split; [rewrite <- app_assoc; reflexivity|]. split; [exact W|].
    intros k1 o' k2 t' E. apply snoc_split in E. destruct E as [(-> & -> & ->)|(k & -> & E)].
    + apply NW.
    + eapply HN. exact E.
  - right. split; [reflexivity|]. intros k1 o' k2 t' E. apply snoc_split in E. destruct E as [(-> & -> & ->)|(k & -> & E)]; [apply NW|eapply HN; exact E].
Qed.

Lemma warned_dec h l (H : l_on l = true <-> shown h) (H2 : l_low l = low_of h false) : (l_on l && l_low l = true /\ warned h) \/ (l_on l && l_low l = false /\ ~ warned h).
Proof. unfold warned. rewrite <- H, <- H2. destruct (l_on l), (l_low l); cbn; intuition congruence. Qed.

Lemma text_step w t0 l h o l' e : (l_on l = true <-> shown h) -> l_low l = low_of h false -> l_over l = over_of h "" ->
  last_written t0 h (l_text l) -> lstep w l o = Ok (l', e) -> last_written t0 (h ++ [o]) (l_text l').
Proof.
  intros A1 A2 A3 HL H.
  assert (WT : forall t l' e, asks h o t -> set_text w l t = (l', e) -> last_written t0 (h ++ [o]) (l_text l')).
  { intros t l2 e2 HA HT. apply set_text_inv in HT. cbv zeta in HT. destruct HT as (-> & _). cbn [l_text]. apply last_written_new.
    destruct (warned_dec h l A1 A2) as [[-> W]|[-> W]]; [eapply writes_warned; eauto|apply writes_asked; assumption]. }
  destruct o as [t|c|c|t|cb| |b]; cbn [lstep] in H.
  - injection H as H. eapply WT; [constructor|exact H].
  - apply set_color_inv in H. destruct H as (x & -> & _). cbn [l_text]. apply last_written_keep; [exact HL|]. intros t' W. inversion W; subst; try discriminate; inversion H.
  - apply last_written_keep; [|intros t' W; inversion W; subst; try discriminate; match goal with K : asks _ _ _ |- _ => inversion K end].
    apply set_back_inv in H. destruct H as (_ & [(_ & -> & _)|(b & l1 & e1 & -> & _ & HC & -> & _)]); [exact HL|].
    apply set_color_inv in HC. destruct HC as (x & -> & _). exact HL.
  - injection H as <- _. apply last_written_keep; [exact HL|]. intros t' W; inversion W; subst; try discriminate; match goal with K : asks _ _ _ |- _ => inversion K end.
  - injection H as H. destruct (update_label_cases w l cb) as [(t & K & E)|(K1 & K2 & E)]; rewrite E in H.
    + eapply WT; [|exact H]. rewrite A3 in K. destruct K as [[K1 K2]|[K1 ->]]; [apply asks_over; assumption|apply asks_cb; assumption].
    + injection H as <- _. apply last_written_keep; [exact HL|]. rewrite A3 in K1. subst cb.
      intros t' W; inversion W; subst; try discriminate; match goal with K : asks _ _ _ |- _ => inversion K; subst end; congruence.
  - unfold label_init in H. destruct (l_on l) eqn:EO.
    + injection H as <- _. apply last_written_keep; [exact HL|]. intros t' W; inversion W; subst; try discriminate; try (match goal with K : asks _ _ _ |- _ => inversion K end; fail). tauto.
    + destruct (set_color l (l_color l)) as [[l1 e1]|] eqn:ES; [|discriminate]. injection H as <- _.
      apply set_color_inv in ES. destruct ES as (x & -> & _). cbn [l_text l_low].
      destruct (l_low l) eqn:ELo.
      * apply last_written_new. apply writes_init; [reflexivity| |congruence]. rewrite <- A1. discriminate.
      * apply last_written_keep; [exact HL|]. intros t' W; inversion W; subst; try discriminate; try (match goal with K : asks _ _ _ |- _ => inversion K end; fail). congruence.
  - injection H as <- _. apply last_written_keep; [exact HL|]. intros t' W; inversion W; subst; try discriminate; match goal with K : asks _ _ _ |- _ => inversion K end.
Qed.
Lemma text_run w t0 c b h l e : lrun w (new_label t0 c b) h = Ok (l, e) -> last_written t0 h (l_text l).
Proof.
  revert l e. induction h as [|h o IH] using rev_ind_snoc; intros l e H.
  - injection H as <- <-. right. split; [reflexivity|]. intros k1 o' k2 t' E. destruct k1; discriminate.
  - apply lrun_snoc_ok in H. destruct H as (l1 & e1 & e2 & H1 & H2 & ->). pose proof (run_attrs _ _ _ _ _ _ _ H1) as (A1 & A2 & A3 & A4 & A5).
    eapply text_step; try exact H2; eauto.
Qed.

(* Exactly one text is the last one written. *)
Lemma asks_fun h o t t' : asks h o t -> asks h o t' -> t = t'.
Proof. intros A B. inversion A; subst; inversion B; subst; congruence. Qed.
Lemma writes_fun h o t t' : writes h o t -> writes h o t' -> t = t'.
Proof.
  intros A B. inversion A; subst; inversion B; subst; try reflexivity; try contradiction;
    try (match goal with K : asks _ LInit _ |- _ => inversion K end; fail); try (eapply asks_fun; eauto; fail).
  all: discriminate.
Qed.
Lemma last_written_fun t0 h t t' : last_written t0 h t -> last_written t0 h t' -> t = t'.
Proof.
  intros A B. induction h as [|h x IH] using rev_ind_snoc.
  - destruct A as [(h1 & o & h2 & E & _)|[-> _]]; [destruct h1; discriminate|]. destruct B as [(h1 & o & h2 & E & _)|[-> _]]; [destruct h1; discriminate|]. reflexivity.
  - assert (C : forall t, last_written t0 (h ++ [x]) t -> writes h x t \/ (last_written t0 h t /\ forall t', ~ writes h x t')).
    { intros u [(h1 & o & h2 & E & W & HN)|[-> HN]].
      - destruct (snoc_split _ _ _ _ _ E) as [(-> & -> & ->)|(k & -> & ->)]; [left; exact W|]. right. split.
        + left. exists h1, o, k. split; [reflexivity|]. split; [exact W|]. intros k1 o' k2 t1 E1. subst k. intros W1. eapply (HN k1 o' (k2 ++ [x])); [rewrite <- app_assoc; reflexivity|exact W1].
        + intros t1. eapply (HN k x []). reflexivity.
      - right. split.
        + right. split; [reflexivity|]. intros k1 o' k2 t1 E1. subst h. eapply (HN k1 o' (k2 ++ [x])). rewrite <- app_assoc. reflexivity.
        + intros t1. eapply (HN h x []). reflexivity. }
    apply C in A. apply C in B. destruct A as [A|[A A']], B as [B|[B B']].
    + eapply writes_fun; eauto.
    + exfalso. eapply B'; eauto.
    + exfalso. eapply A'; eauto.
    + auto.
Qed.

Lemma label_shows w t0 c b h l e s : lrun w (new_label t0 c b) h = Ok (l, e) -> screen_of e = Some s ->
  s = mkScreen (wraps w (l_text l)) (l_color l) (last_back h b) /\ shown h.
Proof.
  intros H HS. pose proof (synced_run _ _ _ _ _ _ _ H) as Y. pose proof (run_attrs _ _ _ _ _ _ _ H) as (_ & _ & _ & A4 & A5).
  unfold synced in Y. destruct (l_on l) eqn:EO; [|congruence]. destruct Y as [Y _]. rewrite HS in Y. injection Y as ->. rewrite A5. split; [reflexivity|]. tauto.
Qed.
Lemma label_on w t0 c b h l e : lrun w (new_label t0 c b) h = Ok (l, e) -> (screen_of e <> None <-> shown h).
Proof.
  intros H. pose proof (synced_run _ _ _ _ _ _ _ H) as Y. pose proof (run_attrs _ _ _ _ _ _ _ H) as (_ & _ & _ & A4 & A5).
  unfold synced in Y. rewrite <- A4. destruct (l_on l); [destruct Y as [-> _]; split; [reflexivity|discriminate]|rewrite Y; split; congruence].
Qed.

(* --- colours --- *)

Lemma determine_contrast b c : solid b = true -> determine_text_color b = Ok c ->
  (c = (255, 255, 255) \/ c = (0, 0, 0)) /\ 1149490 <= Z.abs (brightness c - brightness (behind b)).
Proof.
  destruct b as [[x|xs]|]; cbn [solid determine_text_color behind]; try discriminate; intros _ H; injection H as <-.
  - destruct x as [[r g] u]. unfold luminance, WHITE, BLACK, brightness. cbn [fst snd]. case_if; cbn [fst snd]; split; auto; lia.
  - split; [auto|]. unfold WHITE, brightness. cbn [fst snd]. lia.
Qed.
Lemma determine_total b : solid b = true -> exists c, determine_text_color b = Ok c.
Proof. destruct b as [[x|xs]|]; cbn; try discriminate; eauto. Qed.

(* the colour in force: a colour assigned since the last change of background, else the configured one, else the contrasting one *)
Definition chosen (c : option rgb) (b : option back) (x : rgb) : Prop := match c with Some y => x = y | None => determine_text_color b = Ok x end.

Lemma color_step w l o l' e : lstep w l o = Ok (l', e) ->
  match o with
  | LColor c => exists x, l_color l' = Some x /\ chosen c (l_back l) x
  | LBack b => (b = l_back l /\ l_color l' = l_color l) \/ (b <> l_back l /\ exists x, l_color l' = Some x /\ chosen (l_init l) b x)
  | LInit => if l_on l then l_color l' = l_color l else exists x, l_color l' = Some x /\ chosen (l_color l) (l_back l) x
  | _ => l_color l' = l_color l
  end.
Proof.
  intros H. destruct o as [t|c|c|t|cb| |b]; cbn [lstep] in H.
  - injection H as H. apply set_text_inv in H. destruct H as (-> & _). reflexivity.
  - apply set_color_inv in H. destruct H as (x & -> & K & _). exists x. split; [reflexivity|]. destruct c; exact K.
  - apply set_back_inv in H. destruct H as (_ & [(-> & -> & _)|(b & l1 & e1 & -> & N & HC & -> & _)]); [left; auto|right].
    split; [exact N|]. apply set_color_inv in HC. destruct HC as (x & -> & K & _). exists x. split; [reflexivity|]. cbn in *. destruct (l_init l); exact K.
  - injection H as <- _. reflexivity.
  - injection H as H. destruct (update_label_cases w l cb) as [(t & K & E)|(K1 & K2 & E)]; rewrite E in H.
    + apply set_text_inv in H. destruct H as (-> & _). reflexivity.
    + injection H as <- _. reflexivity.
  - unfold label_init in H. destruct (l_on l) eqn:EO; [injection H as <- _; reflexivity|].
    destruct (set_color l (l_color l)) as [[l1 e1]|] eqn:ES; [|discriminate]. injection H as <- _.
    apply set_color_inv in ES. destruct ES as (x & -> & K & _). exists x. split; [reflexivity|]. destruct (l_color l); exact K.
  - injection H as <- _. reflexivity.
Qed.

(* with no colour assigned *)
Lemma auto_run w t0 b h l e : colourless h -> lrun w (new_label t0 None b) h = Ok (l, e) ->
  (l_on l = true -> l_color l <> None) /\ (forall x, l_color l = Some x -> determine_text_color (l_back l) = Ok x).
Proof.
  revert l e. induction h as [|h o IH] using rev_ind_snoc; intros l e HC H.
  - injection H as <- <-. cbn. split; [discriminate|discriminate].
  - apply lrun_snoc_ok in H. destruct H as (l1 & e1 & e2 & H1 & H2 & ->).
    assert (HC1 : colourless h) by (intros c Hc; apply (HC c); apply in_or_app; auto).
    destruct (IH _ _ HC1 H1) as [I1 I2]. pose proof (run_attrs _ _ _ _ _ _ _ H1) as (A1 & _).
    pose proof (step_attrs _ _ _ _ _ H2) as (B1 & _ & _ & B4 & B5). pose proof (color_step _ _ _ _ _ H2) as CS.
    destruct o as [t|c|c|t|cb| |bb]; rewrite B4, B5.
    + rewrite CS. auto.
    + destruct c as [c|]; [exfalso; apply (HC c); apply in_or_app; right; left; reflexivity|]. destruct CS as (x & -> & K). split; [discriminate|]. intros y E. injection E as <-. exact K.
    + destruct CS as [[-> ->]|(_ & x & -> & K)]; [auto|]. rewrite A1 in K. split; [discriminate|]. intros y E. injection E as <-. exact K.
    + rewrite CS. auto.
    + rewrite CS. auto.
    + destruct (l_on l1) eqn:EO.
      * rewrite CS. auto.
      * destruct CS as (x & -> & K). split; [discriminate|]. intros y E. injection E as <-. unfold chosen in K. destruct (l_color l1) as [z|] eqn:EC; [subst z; apply I2; reflexivity|exact K].
    + rewrite CS. auto.
Qed.

Lemma contrast_run w t0 b h l e s : colourless h -> solid (last_back h b) = true -> lrun w (new_label t0 None b) h = Ok (l, e) -> screen_of e = Some s ->
  exists c, s_color s = Some c /\ (c = (255, 255, 255) \/ c = (0, 0, 0)) /\ 1149490 <= Z.abs (brightness c - brightness (behind (s_back s))).
Proof.
  intros HC HB H HS. destruct (auto_run _ _ _ _ _ _ HC H) as [I1 I2]. pose proof (run_attrs _ _ _ _ _ _ _ H) as (_ & _ & _ & A4 & A5).
  destruct (label_shows _ _ _ _ _ _ _ _ H HS) as [-> HSh]. cbn. rewrite <- A5 in *. destruct (l_color l) as [c|] eqn:EC; [|tauto].
  exists c. split; [reflexivity|]. apply determine_contrast; auto.
Qed.

(* the configured colour *)
Lemma fixed_run w t0 c b h l e : (forall x, ~ In (LColor x) h) -> lrun w (new_label t0 (Some c) b) h = Ok (l, e) -> l_color l = Some c.
Proof.
  revert l e. induction h as [|h o IH] using rev_ind_snoc; intros l e HC H.
  - injection H as <- <-. reflexivity.
  - apply lrun_snoc_ok in H. destruct H as (l1 & e1 & e2 & H1 & H2 & ->).
    assert (HC1 : forall x, ~ In (LColor x) h) by (intros x Hx; apply (HC x); apply in_or_app; auto).
    pose proof (IH _ _ HC1 H1) as I. pose proof (run_attrs _ _ _ _ _ _ _ H1) as (A1 & _). pose proof (color_step _ _ _ _ _ H2) as CS.
    destruct o as [t|x|x|t|cb| |bb]; try (rewrite CS; exact I).
    + exfalso. apply (HC x). apply in_or_app. right. left. reflexivity.
    + destruct CS as [[-> ->]|(_ & y & -> & K)]; [exact I|]. rewrite A1 in K. cbn in K. congruence.
    + destruct (l_on l1); [rewrite CS; exact I|]. destruct CS as (y & -> & K). rewrite I in K. cbn in K. congruence.
Qed.

(* an assigned colour stays until the next one or until the background changes *)
Lemma lrun_app_ok w h1 h2 : forall l l2 e, lrun w l (h1 ++ h2) = Ok (l2, e) -> exists l1 e1 e2, lrun w l h1 = Ok (l1, e1) /\ lrun w l1 h2 = Ok (l2, e2) /\ e = e1 ++ e2.
Proof.
  induction h1 as [|o h1 IH]; intros l l2 e H.
  - exists l, [], e. auto.
  - cbn [app lrun] in *. destruct (lstep w l o) as [[l1 e1]|] eqn:E; [|discriminate]. destruct (lrun w l1 (h1 ++ h2)) as [[l3 e3]|] eqn:E3; [|discriminate].
    injection H as <- <-. destruct (IH _ _ _ E3) as (l4 & e4 & e5 & K1 & K2 & ->). rewrite K1. exists l4, (e1 ++ e4), e5. rewrite app_assoc. auto.
Qed.
Lemma color_kept w h : forall l l2 e, l_on l = true \/ l_color l <> None -> (forall x, ~ In (LColor x) h) -> (forall x, In (LBack x) h -> x = l_back l) -> lrun w l h = Ok (l2, e) -> l_color l2 = l_color l.
Proof.
  induction h as [|o h IH]; intros l l2 e HO HC HB H; cbn [lrun] in H.
  - injection H as <- _. reflexivity.
  - destruct (lstep w l o) as [[l1 e1]|] eqn:E; [|discriminate]. destruct (lrun w l1 h) as [[l3 e3]|] eqn:E3; [|discriminate]. injection H as <- _.
    pose proof (color_step _ _ _ _ _ E) as CS. pose proof (step_attrs _ _ _ _ _ E) as (_ & _ & _ & B4 & B5).
    assert (CE : l_color l1 = l_color l).
    { destruct o as [t|x|x|t|cb| |bb]; try exact CS.
      - exfalso. apply (HC x). left. reflexivity.
      - destruct CS as [[_ CS]|[N _]]; [exact CS|]. exfalso. apply N. apply HB. left. reflexivity.
      - destruct (l_on l); [exact CS|]. destruct CS as (x & -> & K). destruct HO as [HO|HO]; [discriminate|]. destruct (l_color l); [cbn in K; congruence|contradiction]. }
    rewrite <- CE. eapply IH; [| | |exact E3].
    + rewrite CE. destruct HO as [HO|HO]; [left|right; exact HO]. rewrite B4. destruct o; auto.
    + intros x Hx. apply (HC x). right. exact Hx.
    + intros x Hx. rewrite B5. destruct o as [t|y|y|t|cb| |bb]; try (apply HB; right; exact Hx). rewrite (HB y (or_introl eq_refl)). apply HB. right. exact Hx.
Qed.

Lemma color_assigned w t0 c0 b h1 c h2 l e : (forall x, ~ In (LColor x) h2) -> (forall x, In (LBack x) h2 -> x = last_back h1 b) ->
  lrun w (new_label t0 c0 b) (h1 ++ LColor (Some c) :: h2) = Ok (l, e) -> l_color l = Some c.
Proof.
  intros HC HB H. apply lrun_app_ok in H. destruct H as (l1 & e1 & e2 & H1 & H2 & ->). cbn [lrun] in H2.
  destruct (lstep w l1 (LColor (Some c))) as [[l3 e3]|] eqn:E; [|discriminate]. destruct (lrun w l3 h2) as [[l4 e4]|] eqn:E4; [|discriminate]. injection H2 as <- <-.
  pose proof (run_attrs _ _ _ _ _ _ _ H1) as (_ & _ & _ & _ & A5).
  pose proof (color_step _ _ _ _ _ E) as (x & CS & K). cbn in K. subst x. pose proof (step_attrs _ _ _ _ _ E) as (_ & _ & _ & _ & B5).
  rewrite <- CS. eapply color_kept; [|exact HC| |exact E4]; [right; congruence|]. rewrite B5, A5. exact HB.
Qed.

(* after a change of the background: configured or contrasting colour again *)
Lemma color_reset w t0 c0 b h1 bb h2 l e : bb <> last_back h1 b -> (forall x, ~ In (LColor x) h2) -> (forall x, In (LBack x) h2 -> x = bb) ->
  lrun w (new_label t0 c0 b) (h1 ++ LBack bb :: h2) = Ok (l, e) -> exists x, l_color l = Some x /\ chosen c0 bb x.
Proof.
  intros HN HC HB H. apply lrun_app_ok in H. destruct H as (l1 & e1 & e2 & H1 & H2 & ->). cbn [lrun] in H2.
  destruct (lstep w l1 (LBack bb)) as [[l3 e3]|] eqn:E; [|discriminate]. destruct (lrun w l3 h2) as [[l4 e4]|] eqn:E4; [|discriminate]. injection H2 as <- <-.
  pose proof (run_attrs _ _ _ _ _ _ _ H1) as (A1 & _ & _ & _ & A5).
  pose proof (color_step _ _ _ _ _ E) as CS. pose proof (step_attrs _ _ _ _ _ E) as (_ & _ & _ & _ & B5).
  destruct CS as [[CS _]|(_ & x & CS & K)]; [congruence|]. rewrite A1 in K. exists x. split; [|exact K].
  rewrite <- CS. eapply color_kept; [|exact HC| |exact E4]; [right; congruence|]. rewrite B5. exact HB.
Qed.

(* --- exceptions --- *)

Lemma set_color_solid l c : solid (l_back l) = true -> set_color l c <> Raise.
Proof.
  intros HS. unfold set_color. destruct c as [x|].
  - case_if; discriminate.
  - destruct (determine_total _ HS) as [x ->]. case_if; discriminate.
Qed.
Lemma step_raises w l o : solid (l_back l) = true -> (forall c, o = LBack c -> solid c = true) ->
  (lstep w l o = Raise <-> exists c, o = LBack c /\ is_none c <> is_none (l_back l)).
Proof.
  intros HS HO. destruct o as [t|c|c|t|cb| |b]; cbn [lstep]; try (split; [discriminate|intros (c' & E & _); discriminate]).
  - split; [intros E; exfalso; exact (set_color_solid _ _ HS E)|intros (c' & E & _); discriminate].
  - specialize (HO c eq_refl). unfold set_back. destruct (l_back l) as [a|], c as [b|]; cbn [is_none].
    + split; [|intros (c' & E & K); injection E as <-; cbn in K; congruence].
      case_if; [discriminate|]. destruct (set_color _ _) as [[l1 e1]|] eqn:E; [discriminate|]. intros _. exfalso. eapply set_color_solid; [|exact E]. exact HO.
    + split; [|reflexivity]. intros _. exists None. split; [reflexivity|discriminate].
    + split; [|reflexivity]. intros _. exists (Some b). split; [reflexivity|discriminate].
    + split; [discriminate|intros (c' & E & K); injection E as <-; cbn in K; congruence].
  - split; [|intros (c' & E & _); discriminate]. unfold label_init. destruct (l_on l); [discriminate|].
    destruct (set_color l (l_color l)) as [[l1 e1]|] eqn:E; [discriminate|]. intros _. exfalso. exact (set_color_solid _ _ HS E).
Qed.
Lemma run_raises w h : forall l, solid (l_back l) = true -> plain_backs h ->
  (lrun w l h = Raise <-> exists c, In (LBack c) h /\ is_none c <> is_none (l_back l)).
Proof.
  induction h as [|o h IH]; intros l HS HP; cbn [lrun].
  - split; [discriminate|intros (c & [] & _)].
  - assert (HP1 : plain_backs h) by (intros c Hc; apply HP; right; exact Hc).
    assert (HO : forall c, o = LBack c -> solid c = true) by (intros c ->; apply HP; left; reflexivity).
    pose proof (step_raises w l o HS HO) as SR. destruct (lstep w l o) as [[l1 e1]|] eqn:E.
    + pose proof (step_attrs _ _ _ _ _ E) as (_ & _ & _ & _ & B5).
      assert (HS1 : solid (l_back l1) = true) by (rewrite B5; destruct o; auto).
      assert (HN : is_none (l_back l1) = is_none (l_back l)).
      { rewrite B5. destruct o as [t|x|x|t|cb| |bb]; auto. destruct (Bool.bool_dec (is_none x) (is_none (l_back l))) as [K|K]; [exact K|].
        exfalso. assert (Ok (l1, e1) = Raise) by (apply SR; exists x; auto). discriminate. }
      specialize (IH l1 HS1 HP1). rewrite HN in IH.
      assert (IE : (match lrun w l1 h with Ok (l2, e2) => Ok (l2, e1 ++ e2) | Raise => Raise end = Raise) <-> lrun w l1 h = Raise)
        by (destruct (lrun w l1 h) as [[l2 e2]|]; split; congruence).
      rewrite IE, IH. split.
      * intros (c & Hc & K). exists c. split; [right; exact Hc|exact K].
      * intros (c & [->|Hc] & K); [|exists c; auto]. exfalso. assert (Ok (l1, e1) = Raise) by (apply SR; exists c; auto). discriminate.
    + split; [|reflexivity]. intros _. destruct (proj1 SR eq_refl) as (c & -> & K). exists c. split; [left; reflexivity|exact K].
Qed.

(* --- drawing --- *)

Lemma step_draws w l o l' e : lstep w l o = Ok (l', e) -> e <> [] -> l_on l' = true /\
  (l_on l = true -> l_text l' <> l_text l \/ l_color l' <> l_color l \/ l_back l' <> l_back l).
Proof.
  intros H HE. assert (KT : forall t l' e, set_text w l t = (l', e) -> e <> [] -> l_on l' = true /\ (l_on l = true -> l_text l' <> l_text l \/ l_color l' <> l_color l \/ l_back l' <> l_back l)).
  { intros t l2 e2 K NE. apply set_text_inv in K. cbv zeta in K. destruct K as (-> & [[-> _]|(K1 & -> & K2)]); [contradiction|]. cbn. split; [exact K1|]. left. congruence. }
  destruct o as [t|c|c|t|cb| |b]; cbn [lstep] in H.
  - injection H as H. eapply KT; eauto.
  - apply set_color_inv in H. destruct H as (x & -> & _ & [[-> _]|(K1 & -> & K2)]); [contradiction|]. cbn. split; [exact K1|]. right. left. congruence.
  - pose proof (step_attrs w l (LBack c) l' e H) as (_ & _ & _ & B4 & B5). apply set_back_inv in H. destruct H as (_ & [(_ & -> & ->)|(b & l1 & e1 & -> & N & HC & -> & ->)]); [contradiction|].
    apply set_color_inv in HC. destruct HC as (x & -> & _ & HC). cbn in *. destruct (l_on l); [|destruct HC as [[-> _]|(K & _)]; [contradiction|discriminate]].
    split; [reflexivity|]. intros _. right. right. congruence.
  - injection H as _ <-. contradiction.
  - injection H as H. destruct (update_label_cases w l cb) as [(t & K & E)|(K1 & K2 & E)]; rewrite E in H; [eapply KT; eauto|injection H as _ <-; contradiction].
  - unfold label_init in H. destruct (l_on l) eqn:EO; [injection H as _ <-; contradiction|].
    destruct (set_color l (l_color l)) as [[l1 e1]|] eqn:ES; [|discriminate]. injection H as <- _. cbn. split; [reflexivity|discriminate].
  - injection H as _ <-. contradiction.
Qed.
