From Verif.Lib Require Import Base.
From Verif.Model Require Import Period Switch TunerMode.
From Verif.Spec Require Import Switch TunerMode.
From Verif.Proofs Require Import Switch.

Definition st (c : tmcfg) (h : list tmop) : tmode := fst (run (tm_step c) (tm_init c) h).
Lemma st_snoc c h o : st c (h ++ [o]) = fst (tm_step c (st c h) o).
Proof. unfold st. rewrite run_snoc. reflexivity. Qed.
Lemma st_nil c : st c [] = tm_init c.
Proof. reflexivity. Qed.

Lemma last_report_snoc h o d : last_report (h ++ [o]) d = match reported o with Some v => v | None => last_report h d end.
Proof. revert d. induction h as [|x h IH]; intros d; cbn; auto. Qed.
Lemma foot_snoc j h o d : foot j (h ++ [o]) d =
  match o with TPoll i p _ _ => if (i =? j)%nat then p else foot j h d | _ => foot j h d end.
Proof. revert d. induction h as [|x h IH]; intros d; cbn; [destruct o; auto|]. destruct x; auto. Qed.
Lemma down_snoc j h o : down j (h ++ [o]) <->
  match o with TPoll i p _ _ => if (i =? j)%nat then p = true else down j h | _ => down j h end.
Proof. unfold down. rewrite foot_snoc. destruct o; try tauto. destruct (j0 =? j)%nat; tauto. Qed.
Lemma in_tuner_snoc h o : in_tuner (h ++ [o]) <-> match o with TValue v => v = Some 1 | _ => in_tuner h end.
Proof. unfold in_tuner. rewrite last_report_snoc. destruct o; cbn; tauto. Qed.
Lemma in_tuner_dec h : in_tuner h \/ ~ in_tuner h.
Proof. unfold in_tuner. destruct (last_report h None) as [z|]; [|right; discriminate]. destruct (Z.eq_dec z 1); [left|right]; congruence. Qed.
Lemma down_dec j h : down j h \/ ~ down j h.
Proof. unfold down. destruct (foot j h false); [left|right]; congruence. Qed.
Lemma tm_root_1 v : tm_root v = true <-> v = Some 1.
Proof. destruct v as [z|]; cbn; [rewrite Z.eqb_eq|]; split; congruence. Qed.

(* Overrides and display follow the reports. *)
Lemma over_inv c h : (forall j, tm_over (st c h) j = true <-> (j < tm_n c)%nat /\ in_tuner h) /\ (tm_shown (st c h) = true <-> in_tuner h).
Proof.
  induction h as [|h o [IH IHs]] using rev_ind_snoc.
  - rewrite st_nil. cbn. unfold in_tuner. cbn. split; [intros j|]; split; try discriminate. intros [_ H]; discriminate.
  - setoid_rewrite in_tuner_snoc. rewrite st_snoc. destruct o as [j p now en|v|]; cbn [tm_step].
    + destruct (j <? tm_n c)%nat; [|cbn [fst]; split; [exact IH|exact IHs]].
      destruct (process _ _ _) as [w evs]. destruct (tm_handle_all _ _ _) as [b out]. cbn [fst tm_over tm_shown]. split; [exact IH|exact IHs].
    + pose proof (tm_root_1 v) as Hr. change (match v with Some x => x =? 1 | None => false end) with (tm_root v).
      destruct (tm_root v) eqn:E; cbn [fst tm_over tm_shown].
      * assert (v = Some 1) by tauto. split; [|tauto]. intros j. rewrite Bool.orb_true_iff, Nat.ltb_lt, IH. tauto.
      * assert (v <> Some 1) by (intros X; apply Hr in X; discriminate). split; [|split; [discriminate|tauto]].
        intros j. rewrite Bool.andb_true_iff, Bool.negb_true_iff, Nat.ltb_ge, IH. split; [lia|tauto].
    + cbn [fst tm_over tm_shown]. split; [exact IH|exact IHs].
Qed.

(* ---- events of one switch ---- *)
Definition ov_free (l : list switch_ev) : Prop := forall e, In e l -> e <> OvPush /\ e <> OvRelease.
Lemma handle_free before j l : ov_free l -> tm_handle_all before j l = (before, map (TAct j) l).
Proof.
  induction l as [|e l IH]; intros H; cbn; auto.
  destruct (H e (or_introl eq_refl)) as [H1 H2].
  assert (tm_handle before j e = (before, [TAct j e])) as -> by (destruct e; try congruence; reflexivity).
  rewrite IH by (intros x Hx; apply H; right; auto). reflexivity.
Qed.
Lemma ov_free_each en f l : (forall a, ov_free (f a)) -> ov_free (each en f l).
Proof.
  intros Hf e He. unfold each in He. apply in_flat_map in He. destruct He as [a [_ He]]. destruct (en a); [|inv He]. exact (Hf a e He).
Qed.
Lemma ov_free_push a : ov_free [Push a]. Proof. intros e [<-|[]]; split; discriminate. Qed.
Lemma ov_free_rel a : ov_free [Release a]. Proof. intros e [<-|[]]; split; discriminate. Qed.
Lemma ov_free_click a : ov_free [Push a; Release a]. Proof. intros e [<-|[<-|[]]]; split; discriminate. Qed.
Lemma ov_free_nil : ov_free []. Proof. intros e []. Qed.
Lemma ov_free_app a b : ov_free a -> ov_free b -> ov_free (a ++ b).
Proof. intros Ha Hb e He. apply in_app_or in He. destruct He; auto. Qed.

Lemma release_free c s p : ov_free (snd (do_release c s p)).
Proof.
  unfold do_release, check_hold, release_normal.
  assert (forall f, (forall a, ov_free (f a)) -> forall l, ov_free (each (p_enabled p) f l)) as He by (intros; apply ov_free_each; auto).
  assert (forall a, ov_free (if has_hold c then [Push a; Release a] else [Release a])) as Hn
    by (intros a; destruct (has_hold c); [apply ov_free_click|apply ov_free_rel]).
  destruct (has_hold c) eqn:Eh.
  - destruct (negb (hold_active s)); [apply ov_free_nil|].
    destruct (p_exceeded _ _) as [r per]. destruct r.
    + apply He, ov_free_click.
    + cbn [hold_was_active]. destruct (hold_was_active s); cbn; [apply ov_free_nil|]. apply He, ov_free_click.
  - cbn. apply He, ov_free_rel.
Qed.

(* Invariant: a running hold is a switch that is down; pushed_state is the foot. With a switch that declines: no hold runs in tuner mode. *)
Lemma plain_hold c j h : plain c j -> hold_active (tm_sw (st c h) j) = false.
Proof.
  intros Hp. induction h as [|h o IH] using rev_ind_snoc.
  - rewrite st_nil. reflexivity.
  - rewrite st_snoc. destruct o as [i p now en|v|]; cbn [tm_step].
    + destruct (i <? tm_n c)%nat; [|auto].
      destruct (process _ _ _) as [w evs] eqn:E. destruct (tm_handle_all _ _ _) as [b out]. cbn [fst tm_sw]. unfold upd_sw.
      destruct (j =? i)%nat eqn:Eij; [|auto]. apply Nat.eqb_eq in Eij. subst i.
      unfold process, do_push, do_release, release_normal, has_hold in E. rewrite Hp in E. cbn [p_pushed p_override] in E. rewrite IH in E.
      destruct p; cbn [negb] in E.
      * destruct (pushed_state _); [inv E; auto|].
        destruct (tm_over _ _); [destruct (tm_accepts _ _ _)|]; inv E; cbn; auto.
      * destruct (pushed_state _); [|inv E; auto].
        destruct (tm_over _ _); [destruct (tm_accepts _ _ _)|]; inv E; cbn; auto.
    + destruct (match v with Some x => x =? 1 | None => false end); auto.
    + auto.
Qed.

Lemma calm_prefix c h o : calm c (h ++ [o]) -> calm c h.
Proof.
  intros H j Hj. destruct (H j Hj) as [|[H1 [H2 H3]]]; auto. right. split; [auto|split; [auto|]].
  intros h1 h2 ->. apply H3 with (h2 := h2 ++ [o]). rewrite <- app_assoc. reflexivity.
Qed.

Lemma hold_inv c h j : calm c h -> (j < tm_n c)%nat ->
  (hold_active (tm_sw (st c h) j) = true -> pushed_state (tm_sw (st c h) j) = true /\ ~ in_tuner h) /\
  (pushed_state (tm_sw (st c h) j) = true <-> down j h).
Proof.
  intros Hc Hj. induction h as [|h o IH] using rev_ind_snoc.
  - rewrite st_nil. cbn. unfold down. cbn. split; [|split]; discriminate.
  - specialize (IH (calm_prefix _ _ _ Hc)). destruct IH as [IH1 IH2].
    destruct o as [i p now en|v|].
    + assert (HT := in_tuner_snoc h (TPoll i p now en)). assert (HD := down_snoc j h (TPoll i p now en)). cbn in HT, HD.
      rewrite HT, HD. rewrite st_snoc. cbn [tm_step].
      destruct (i <? tm_n c)%nat eqn:Ei.
      2:{ assert ((i =? j)%nat = false) as -> by lia. auto. }
      destruct (process _ _ _) as [w evs] eqn:E. destruct (tm_handle_all _ _ _) as [b out]. cbn [fst tm_sw]. unfold upd_sw.
      rewrite (Nat.eqb_sym j i). destruct (i =? j)%nat eqn:Eij; [|auto]. apply Nat.eqb_eq in Eij. subst i.
      destruct (over_inv c h) as [Hov _]. specialize (Hov j).
      set (s := tm_sw (st c h) j) in *.
      destruct (Hc j Hj) as [Hp|[Hpr [Hrep _]]].
      * (* plain *)
        assert (hold_active s = false) as Hh by (apply plain_hold; auto).
        unfold process, do_push, do_release, release_normal, has_hold in E. rewrite Hp in E. cbn [p_pushed p_override] in E. rewrite Hh in E.
        destruct p; cbn [negb] in E.
        -- destruct (pushed_state s) eqn:Eps; [inv E; split; [congruence|tauto]|].
           destruct (tm_over _ _); [destruct (tm_accepts _ _ _)|]; inv E; cbn; (split; [congruence|tauto]).
        -- destruct (pushed_state s) eqn:Eps.
           2:{ inv E. rewrite Eps. split; [congruence|]. split; intros; discriminate. }
           destruct (tm_over _ _); [destruct (tm_accepts _ _ _)|]; inv E; cbn; (split; [congruence|split; intros; discriminate]).
      * assert (tm_accepts c (tm_before (st c h)) p = false) as Ha
          by (unfold tm_accepts; rewrite Hpr; destruct p, (tm_before (st c h)); reflexivity).
        rewrite Ha in E. unfold process in E. cbn [p_pushed p_override] in E. destruct p; cbn [negb] in E.
        -- (* pushed *)
           assert (forall w' evs', do_push (tm_switch c j) s (mkPoll true now en (if tm_over (st c h) j then Some false else None)) = (w', evs') ->
                     pushed_state s = false \/ True -> hold_active s = false \/ pushed_state s = true /\ ~ in_tuner h ->
                     (hold_active w' = true -> pushed_state w' = true /\ ~ in_tuner h) /\ pushed_state w' = true) as HP.
           { intros w' evs' Ew _ Hs. unfold do_push in Ew. cbn [p_override p_now p_enabled] in Ew.
             destruct (pushed_state s) eqn:Eps.
             - inv Ew. rewrite Eps. split; [|reflexivity]. intros X. destruct Hs as [Hs|[_ Hs]]; [congruence|auto].
             - destruct (tm_over (st c h) j) eqn:Eo.
               + inv Ew. cbn. split; [|reflexivity]. intros X. destruct Hs as [Hs|[Hs _]]; congruence.
               + assert (~ in_tuner h) by (intros X; assert (false = true) by (apply Hov; auto); discriminate).
                 destruct (has_hold _); inv Ew; cbn; split; auto. }
           destruct (hold_active s) eqn:Eh.
           ++ destruct (IH1 eq_refl) as [Hps Hnt]. unfold check_hold in E. cbn [p_now p_enabled] in E. rewrite Hrep in E.
              destruct (p_exceeded _ _) as [r per]. destruct r.
              ** inv E. cbn. rewrite Hps. split; [discriminate|tauto].
              ** unfold do_push in E. cbn [pushed_state] in E. rewrite Hps in E. inv E. cbn. rewrite ?Hps. tauto.
           ++ destruct (HP w evs E (or_intror I) (or_introl eq_refl)) as [A B]. split; [exact A|tauto].
        -- destruct (pushed_state s) eqn:Eps.
           2:{ inv E. rewrite Eps. split; [auto|]. split; intros; discriminate. }
           destruct (tm_over (st c h) j) eqn:Eo.
           ++ inv E. cbn. split; [|split; intros; discriminate]. intros X. destruct (IH1 X) as [_ X2]. exfalso. apply X2. apply Hov. reflexivity.
           ++ unfold do_release in E. cbn [hold_active pushed_state] in E.
              destruct (has_hold _).
              ** destruct (hold_active s) eqn:Eh; cbn [negb] in E.
                 2:{ inv E. cbn. rewrite ?Eh. split; [discriminate|split; intros; discriminate]. }
                 unfold check_hold in E. cbn [p_now p_enabled period_hold pushed_state hold_active hold_was_active] in E. rewrite Hrep in E.
                 destruct (p_exceeded _ _) as [r per]. destruct r.
                 { inv E. cbn. split; [discriminate|split; intros; discriminate]. }
                 cbn [hold_was_active] in E. destruct (hold_was_active s); cbn in E; inv E; cbn; split; try discriminate; split; intros; discriminate.
              ** cbn in E. inv E. cbn. split; [discriminate|split; intros; discriminate].
    + assert (HT := in_tuner_snoc h (TValue v)). assert (HD := down_snoc j h (TValue v)). cbn in HT, HD. rewrite HT, HD, st_snoc.
      assert (tm_sw (fst (tm_step c (st c h) (TValue v))) = tm_sw (st c h)) as ->
        by (cbn [tm_step]; destruct (match v with Some x => x =? 1 | None => false end); reflexivity).
      split; [|exact IH2]. intros X. destruct (IH1 X) as [A B]. split; [exact A|]. intros ->.
      destruct (Hc j Hj) as [Hp|[_ [_ H3]]].
      * rewrite (plain_hold c j h Hp) in X. discriminate.
      * apply (H3 h []); auto. apply IH2. exact A.
    + assert (HT := in_tuner_snoc h TLost). assert (HD := down_snoc j h TLost). cbn in HT, HD. rewrite HT, HD, st_snoc. cbn [tm_step fst tm_sw]. auto.
Qed.

(* ---- one poll, in the words of the specification ---- *)
Definition acts_only (l : list tmev) : Prop := forall e, In e l -> is_act e = true.
Lemma acts_map j l : acts_only (map (TAct j) l).
Proof. intros e He. apply in_map_iff in He. destruct He as [x [<- _]]. reflexivity. Qed.
Lemma acts_nil : acts_only []. Proof. intros e []. Qed.

Definition before (c : tmcfg) (h : list tmop) : bool := tm_before (st c h).

Lemma poll_out c h j p now en : (j < tm_n c)%nat ->
  let ov := if tm_over (st c h) j then Some (tm_accepts c (before c h) p) else None in
  let r := process (tm_switch c j) (tm_sw (st c h) j) (mkPoll p now en ov) in
  outputs c h (TPoll j p now en) = snd (tm_handle_all (before c h) j (snd r)) /\
  before c (h ++ [TPoll j p now en]) = fst (tm_handle_all (before c h) j (snd r)).
Proof.
  intros Hj ov r. unfold outputs, before at 2. rewrite st_snoc. fold (st c h). cbn [tm_step].
  assert ((j <? tm_n c)%nat = true) as -> by (apply Nat.ltb_lt; auto).
  fold (before c h). fold ov. fold r. destruct r as [w evs]. cbn [snd]. destruct (tm_handle_all _ _ _) as [b out]. split; reflexivity.
Qed.

Lemma each_acts en j f l : map (TAct j) (each en (fun a => [f a]) l) = map (fun a => TAct j (f a)) (filter en l).
Proof. unfold each. induction l as [|a l IH]; cbn; auto. destruct (en a); cbn; rewrite IH; reflexivity. Qed.
Lemma release_plain c s p : sw_hold c = [] -> snd (do_release c s p) = each (p_enabled p) (fun a => [Release a]) (sw_actions c).
Proof. intros H. destruct c as [a hd r]. cbn in H. subst. reflexivity. Qed.

Lemma push_free c s p : p_override p = None -> ov_free (snd (do_push c s p)).
Proof.
  intros H. unfold do_push. rewrite H. destruct (pushed_state s); [apply ov_free_nil|]. destruct (has_hold c); [apply ov_free_nil|].
  apply ov_free_each, ov_free_push.
Qed.

Lemma poll_tuner c h j p now en : calm c h -> (j < tm_n c)%nat -> in_tuner h ->
  (p = true /\ ~ down j h /\ before c (h ++ [TPoll j p now en]) = true /\
     outputs c h (TPoll j p now en) = if tm_process c then (if has_hold (tm_switch c j) then [] else pushes c j en) else []) \/
  (p = false /\ down j h /\ before c (h ++ [TPoll j p now en]) = false /\
     exists l, acts_only l /\ (tm_process c = false -> l = []) /\ (plain c j -> l = if tm_process c then releases c j en else []) /\
     outputs c h (TPoll j p now en) = if before c h then TOff :: l else []) \/
  ((p = true <-> down j h) /\ before c (h ++ [TPoll j p now en]) = before c h /\ outputs c h (TPoll j p now en) = []).
Proof.
  intros Hc Hj Ht. destruct (hold_inv c h j Hc Hj) as [H1 H2].
  destruct (poll_out c h j p now en Hj) as [Ho Hb]. rewrite Ho, Hb. clear Ho Hb.
  destruct (over_inv c h) as [Hov _]. rewrite (proj2 (Hov j) (conj Hj Ht)).
  set (s := tm_sw (st c h) j) in *.
  assert (hold_active s = false) as Hh by (destruct (hold_active s); auto; destruct (H1 eq_refl); tauto).
  unfold process. cbn [p_pushed p_override]. rewrite Hh. destruct p; cbn [negb].
  - unfold do_push. cbn [p_override p_now p_enabled]. destruct (pushed_state s) eqn:Eps.
    + right. right. cbn. tauto.
    + left. assert (~ down j h) by (intros X; apply H2 in X; discriminate). unfold tm_accepts.
      destruct (tm_process c).
      * destruct (has_hold _).
        -- cbn. auto.
        -- cbn [snd tm_handle_all tm_handle]. rewrite handle_free by (apply ov_free_each, ov_free_push).
           cbn [fst snd app]. split; [auto|split; [auto|split; [auto|]]].
           apply each_acts.
      * cbn. auto.
  - destruct (pushed_state s) eqn:Eps.
    2:{ right. right. cbn. split; [|auto]. split; [discriminate|]. intros X. apply H2 in X. discriminate. }
    right. left. split; [auto|]. split; [apply H2; auto|]. unfold tm_accepts.
    destruct (before c h) eqn:Eb; cbn [negb].
    + destruct (tm_process c) eqn:Epr.
      * pose proof (release_free (tm_switch c j) (mkSwitch false false (hold_was_active s) (period_hold s)) (mkPoll false now en (Some true))) as Hf.
        destruct (do_release _ _ _) as [w ev] eqn:Er. cbn [snd] in Hf |- *. cbn [tm_handle_all tm_handle negb]. rewrite handle_free by exact Hf.
        cbn [fst snd app]. split; [auto|]. exists (map (TAct j) ev). split; [apply acts_map|]. split; [discriminate|]. split; [|reflexivity].
        intros Hp. match type of Er with do_release ?a ?b ?d = _ => pose proof (release_plain a b d Hp) as X end.
        rewrite Er in X. cbn [snd p_enabled] in X. rewrite X. apply each_acts.
      * cbn. split; [auto|]. exists []. split; [apply acts_nil|]. auto.
    + cbn. split; [auto|]. exists (if tm_process c then releases c j en else []). split.
      { destruct (tm_process c); [|apply acts_nil]. intros e He. unfold releases in He. apply in_map_iff in He. destruct He as [x [<- _]]. reflexivity. }
      split; [intros ->; auto|]. auto.
Qed.

Lemma poll_normal c h j p now en : (j < tm_n c)%nat -> ~ in_tuner h ->
  before c (h ++ [TPoll j p now en]) = before c h /\
  acts_only (outputs c h (TPoll j p now en)) /\
  (plain c j -> calm c h -> outputs c h (TPoll j p now en) =
     match foot j h false, p with false, true => pushes c j en | true, false => releases c j en | _, _ => [] end).
Proof.
  intros Hj Ht. destruct (poll_out c h j p now en Hj) as [Ho Hb]. rewrite Ho, Hb. clear Ho Hb.
  destruct (over_inv c h) as [Hov _]. specialize (Hov j).
  assert (tm_over (st c h) j = false) as -> by (destruct (tm_over (st c h) j); auto; exfalso; apply Ht, Hov; auto).
  set (s := tm_sw (st c h) j) in *.
  assert (ov_free (snd (process (tm_switch c j) s (mkPoll p now en None)))) as Hf.
  { unfold process, check_hold. cbn [p_pushed p_override p_now p_enabled]. destruct p; cbn [negb].
    - destruct (hold_active s); [|apply push_free; reflexivity].
      destruct (p_exceeded _ _) as [r per]. destruct r; [apply ov_free_each, ov_free_click|]. apply push_free. reflexivity.
    - destruct (pushed_state s); [|apply ov_free_nil]. apply release_free. }
  rewrite handle_free by exact Hf. cbn [fst snd]. split; [auto|]. split; [apply acts_map|].
  intros Hp Hc. destruct (hold_inv c h j Hc Hj) as [_ H2]. fold s in H2. unfold down in H2.
  pose proof (plain_hold c j h Hp) as Hh. fold s in Hh.
  assert (pushed_state s = foot j h false) as Hps.
  { destruct (pushed_state s), (foot j h false); auto; destruct H2 as [A B]; [symmetry; apply A|apply B]; reflexivity. }
  unfold process. cbn [p_pushed p_override]. rewrite Hh, Hps.
  destruct p; cbn [negb].
  - unfold do_push. rewrite Hps. destruct (foot j h false); [reflexivity|]. cbn [p_override p_enabled]. unfold has_hold. rewrite Hp.
    cbn [snd]. apply each_acts.
  - destruct (foot j h false); [|reflexivity]. rewrite (release_plain _ _ _ Hp). apply each_acts.
Qed.

(* ---- the flag is what the specification calls armed ---- *)
Lemma app_snoc_inv {A} (l1 l2 : list A) a x h : l1 ++ a :: l2 = h ++ [x] ->
  (l2 = [] /\ h = l1 /\ a = x) \/ exists l2', l2 = l2' ++ [x] /\ h = l1 ++ a :: l2'.
Proof.
  intros E. destruct l2 as [|y l2] using rev_ind; [left|right].
  - apply app_inj_tail in E. destruct E as [-> ->]. auto.
  - exists l2. clear IHl2. assert ((l1 ++ a :: l2) ++ [y] = h ++ [x]) as E2 by (rewrite <- E, <- app_assoc; reflexivity).
    apply app_inj_tail in E2. destruct E2 as [<- <-]. auto.
Qed.

Lemma armed_snoc c h o : armed c (h ++ [o]) <-> tuner_press c h o \/ (armed c h /\ ~ tuner_release c h o).
Proof.
  split.
  - intros [h1 [x [h2 [E [Hp Hn]]]]]. symmetry in E. apply app_snoc_inv in E. destruct E as [[-> [-> ->]]|[l [-> ->]]]; [left; auto|right].
    split.
    + exists h1, x, l. split; [auto|]. split; [auto|]. intros k1 o' k2 ->. apply (Hn k1 o' (k2 ++ [o])). rewrite <- app_assoc. reflexivity.
    + apply (Hn l o []). reflexivity.
  - intros [Hp|[[h1 [x [h2 [-> [Hp Hn]]]]] Hr]].
    + exists h, o, []. split; [auto|]. split; [auto|]. intros k1 o' k2 E. destruct k1; discriminate.
    + exists h1, x, (h2 ++ [o]). split; [rewrite <- app_assoc; reflexivity|]. split; [auto|].
      intros k1 o' k2 E. symmetry in E. apply app_snoc_inv in E. destruct E as [[-> [-> ->]]|[l [-> ->]]]; [auto|]. apply (Hn k1 o' l). reflexivity.
Qed.
Lemma press_not_release c h o : tuner_press c h o -> ~ tuner_release c h o.
Proof. intros [_ [j [n [e [_ [-> _]]]]]] [_ [j' [n' [e' [_ [E _]]]]]]. inv E. Qed.

Lemma before_other c h o : (forall j p n e, o = TPoll j p n e -> (tm_n c <= j)%nat) -> before c (h ++ [o]) = before c h.
Proof.
  intros H. unfold before. rewrite st_snoc. destruct o as [j p n e|v|]; cbn [tm_step].
  - assert ((j <? tm_n c)%nat = false) as -> by (apply Nat.ltb_ge, (H j p n e eq_refl)). reflexivity.
  - destruct (match v with Some x => x =? 1 | None => false end); reflexivity.
  - reflexivity.
Qed.

Lemma before_armed c h : calm c h -> (before c h = true <-> armed c h).
Proof.
  induction h as [|h o IH] using rev_ind_snoc; intros Hc.
  - unfold before. cbn. split; [discriminate|]. intros [h1 [x [h2 [E _]]]]. destruct h1; discriminate.
  - specialize (IH (calm_prefix _ _ _ Hc)). pose proof (calm_prefix _ _ _ Hc) as Hc'. rewrite armed_snoc.
    assert ((exists j p n e, o = TPoll j p n e /\ (j < tm_n c)%nat) \/ forall j p n e, o = TPoll j p n e -> (tm_n c <= j)%nat) as [[j [p [n [e [-> Hj]]]]]|Ho].
    { destruct o as [j p n e|v|]; try (right; intros; discriminate). destruct (le_lt_dec (tm_n c) j).
      - right. intros * E. injection E as <- <- <- <-. auto. - left. exists j, p, n, e. auto. }
    + destruct (in_tuner_dec h) as [Ht|Ht].
      * destruct (poll_tuner c h j p n e Hc' Hj Ht) as [[-> [Hd [Hb _]]]|[[-> [Hd [Hb _]]]|[Hd [Hb _]]]]; rewrite Hb.
        -- split; auto. intros _. left. split; [auto|]. exists j, n, e. auto.
        -- split; [discriminate|]. intros [[_ [j' [n' [e' [_ [E _]]]]]]|[_ Hn]]; [inv E|]. exfalso. apply Hn. split; auto. exists j, n, e. auto.
        -- rewrite IH. split.
           ++ intros Ha. right. split; auto. intros [_ [j' [n' [e' [_ [E Hd']]]]]]. injection E as <- -> _ _. apply Hd in Hd'. discriminate.
           ++ intros [[_ [j' [n' [e' [_ [E Hd']]]]]]|[Ha _]]; auto. injection E as <- -> _ _. exfalso. apply Hd', Hd. reflexivity.
      * destruct (poll_normal c h j p n e Hj Ht) as [Hb _]. rewrite Hb, IH. split.
        -- intros Ha. right. split; auto. intros [X _]. auto.
        -- intros [[X _]|[Ha _]]; tauto.
    + rewrite before_other, IH by auto. split.
      * intros Ha. right. split; auto. intros [_ [j [n [e [Hj [-> _]]]]]]. specialize (Ho j false n e eq_refl). lia.
      * intros [[_ [j [n [e [Hj [-> _]]]]]]|[Ha _]]; auto. specialize (Ho j true n e eq_refl). lia.
Qed.
Lemma armed_dec c h : calm c h -> armed c h \/ ~ armed c h.
Proof. intros Hc. pose proof (before_armed c h Hc). destruct (before c h); [left|right]; intuition discriminate. Qed.

(* ---- the properties ---- *)
Lemma acts_no_off l : acts_only l -> filter is_off l = [].
Proof. intros H. induction l as [|e l IH]; auto. assert (is_act e = true) as He by (apply H; left; auto). destruct e; try discriminate. apply IH. intros x Hx. apply H. right. auto. Qed.
Lemma pushes_acts c j en : acts_only (pushes c j en).
Proof. intros e He. unfold pushes in He. apply in_map_iff in He. destruct He as [x [<- _]]. reflexivity. Qed.
Lemma out_range c h j p now en : (tm_n c <= j)%nat -> outputs c h (TPoll j p now en) = [].
Proof. intros H. unfold outputs. cbn [tm_step]. assert ((j <? tm_n c)%nat = false) as -> by (apply Nat.ltb_ge; auto). reflexivity. Qed.

Lemma off_iff c h o : calm c h -> (In TOff (outputs c h o) <-> tuner_release c h o /\ armed c h) /\ (length (filter is_off (outputs c h o)) <= 1)%nat.
Proof.
  intros Hc. destruct o as [j p now en|v|].
  - destruct (le_lt_dec (tm_n c) j) as [Hj|Hj].
    { rewrite out_range by auto. cbn. split; [|lia]. split; [tauto|]. intros [[_ [j' [n' [e' [Hj' [E _]]]]]] _]. injection E as <- _ _ _. lia. }
    destruct (in_tuner_dec h) as [Ht|Ht].
    + rewrite <- (before_armed c h Hc).
      destruct (poll_tuner c h j p now en Hc Hj Ht) as [[-> [Hd [_ ->]]]|[[-> [Hd [_ [l [Hl [_ [_ ->]]]]]]]|[Hd [_ ->]]]].
      * assert (acts_only (if tm_process c then if has_hold (tm_switch c j) then [] else pushes c j en else [])) as Ha
          by (destruct (tm_process c); [destruct (has_hold _)|]; try apply acts_nil; apply pushes_acts).
        rewrite (acts_no_off _ Ha). split; [|cbn; lia]. split.
        -- intros X. apply Ha in X. discriminate.
        -- intros [[_ [j' [n' [e' [_ [E _]]]]]] _]. discriminate.
      * destruct (before c h); cbn.
        -- rewrite (acts_no_off _ Hl). split; [|cbn; lia]. split; [|auto]. intros _. split; auto. split; auto. exists j, now, en. auto.
        -- split; [|lia]. split; [tauto|]. intros [_ X]; discriminate.
      * cbn. split; [|lia]. split; [tauto|]. intros [[_ [j' [n' [e' [_ [E Hd']]]]]] _]. injection E as <- -> _ _. apply Hd in Hd'. discriminate.
    + destruct (poll_normal c h j p now en Hj Ht) as [_ [Ha _]]. rewrite (acts_no_off _ Ha). split; [|cbn; lia]. split.
      * intros X. apply Ha in X. discriminate.
      * intros [[X _] _]. tauto.
  - assert (~ In TOff (outputs c h (TValue v)) /\ filter is_off (outputs c h (TValue v)) = []) as [H1 ->].
    { unfold outputs. cbn [tm_step].
      assert (forall f n, (forall j, is_off (f j) = false) -> filter is_off (map f (seq 0 n)) = []) as Hf
        by (intros f n Hfj; generalize 0%nat; induction n as [|n IH]; intros k; cbn; auto; rewrite Hfj; auto).
      assert (filter is_off (snd (tm_step c (fst (run (tm_step c) (tm_init c) h)) (TValue v))) = []) as HF.
      { cbn [tm_step]. destruct (match v with Some x => x =? 1 | None => false end); cbn [snd]; rewrite filter_app; (destruct (eqb _ _); cbn [filter is_off app]);
          (destruct (negb (tm_process c)) || idtac); try reflexivity; apply Hf; reflexivity. }
      split; [|exact HF]. intros X. assert (In TOff (filter is_off (snd (tm_step c (fst (run (tm_step c) (tm_init c) h)) (TValue v))))) as Y
        by (apply filter_In; split; [exact X|reflexivity]). rewrite HF in Y. inv Y. }
    split; [|cbn; lia]. split; [tauto|]. intros [[_ [j' [n' [e' [_ [E _]]]]]] _]. discriminate.
  - cbn. split; [|lia]. split; [tauto|]. intros [[_ [j' [n' [e' [_ [E _]]]]]] _]. discriminate.
Qed.

Lemma armed_app c h1 h2 : (forall k1 o k2, h2 = k1 ++ o :: k2 -> ~ tuner_press c (h1 ++ k1) o) -> ~ armed c h1 -> ~ armed c (h1 ++ h2).
Proof.
  induction h2 as [|h2 o IH] using rev_ind_snoc; intros Hn Ha; [rewrite app_nil_r; auto|].
  rewrite app_assoc, armed_snoc. intros [Hp|[Hp _]].
  - apply (Hn h2 o []); auto.
  - apply IH; auto. intros k1 o' k2 ->. apply (Hn k1 o' (k2 ++ [o])). rewrite <- app_assoc. reflexivity.
Qed.
Lemma enabling c h1 h2 o : calm c (h1 ++ h2) -> ~ armed c h1 ->
  (forall k1 x k2, h2 = k1 ++ x :: k2 -> ~ tuner_press c (h1 ++ k1) x) -> ~ In TOff (outputs c (h1 ++ h2) o).
Proof. intros Hc Ha Hn X. apply (off_iff c (h1 ++ h2) o Hc) in X. destruct X as [_ X]. revert X. apply armed_app; auto. Qed.

Lemma shown_iff c h v b : In (TShow b) (outputs c h (TValue v)) <->
  (b = true /\ v = Some 1 /\ ~ in_tuner h) \/ (b = false /\ v <> Some 1 /\ in_tuner h).
Proof.
  destruct (over_inv c h) as [_ Hs]. fold (st c h) in *. unfold outputs. fold (st c h). cbn [tm_step].
  pose proof (tm_root_1 v) as Hr. change (match v with Some x => x =? 1 | None => false end) with (tm_root v).
  assert (forall f n, (forall j, f j <> TShow b) -> ~ In (TShow b) (map f (seq 0 n))) as Hf
    by (intros f n Hfj X; apply in_map_iff in X; destruct X as [x [X _]]; exact (Hfj x X)).
  assert (~ In (TShow b) (if negb (tm_process c) then map TDark (seq 0 (tm_n c)) else [])) as Hf1
    by (destruct (negb _); [apply Hf; discriminate|intros []]).
  assert (~ In (TShow b) (map TReset (seq 0 (tm_n c)))) as Hf2 by (apply Hf; discriminate).
  assert (if tm_root v then v = Some 1 else v <> Some 1) as Hv
    by (destruct (tm_root v); [apply Hr; reflexivity|intros X; apply Hr in X; discriminate]).
  assert (if tm_shown (st c h) then in_tuner h else ~ in_tuner h) as Ht
    by (destruct (tm_shown (st c h)); [apply Hs; reflexivity|intros X; apply Hs in X; discriminate]).
  clear Hr Hs. destruct (tm_root v); cbn [snd]; rewrite in_app_iff; destruct (tm_shown (st c h)); cbn [eqb In];
    (split; [intros [X|X]; [|contradiction]|]);
    try contradiction; try (destruct X as [X|[]]; injection X as <-); intuition congruence.
Qed.

Lemma value_acts c h v e : In e (outputs c h (TValue v)) -> is_act e = false.
Proof.
  unfold outputs. cbn [tm_step]. destruct (match v with Some x => x =? 1 | None => false end); cbn [snd]; rewrite in_app_iff; intros [X|X].
  - destruct (eqb _ _); [destruct X|destruct X as [<-|[]]; reflexivity].
  - destruct (negb (tm_process c)); [|inv X]. apply in_map_iff in X. destruct X as [x [<- _]]. reflexivity.
  - destruct (eqb _ _); [destruct X|destruct X as [<-|[]]; reflexivity].
  - apply in_map_iff in X. destruct X as [x [<- _]]. reflexivity.
Qed.
Lemma no_actions c h o e : calm c h -> tm_process c = false -> in_tuner h -> In e (outputs c h o) -> is_act e = false.
Proof.
  intros Hc Hp Ht. destruct o as [j p now en|v|]; [|apply value_acts|intros []].
  destruct (le_lt_dec (tm_n c) j) as [Hj|Hj]; [rewrite out_range by auto; intros []|].
  destruct (poll_tuner c h j p now en Hc Hj Ht) as [[_ [_ [_ ->]]]|[[_ [_ [_ [l [_ [Hl [_ ->]]]]]]]|[_ [_ ->]]]].
  - rewrite Hp. intros [].
  - rewrite (Hl Hp). destruct (before c h); [|intros []]. intros [<-|[]]. reflexivity.
  - intros [].
Qed.
Lemma processed c h j now en : calm c h -> tm_process c = true -> in_tuner h -> (j < tm_n c)%nat -> plain c j ->
  outputs c h (TPoll j true now en) = (if foot j h false then [] else pushes c j en) /\
  (down j h -> armed c h -> outputs c h (TPoll j false now en) = TOff :: releases c j en) /\
  (~ down j h \/ ~ armed c h -> outputs c h (TPoll j false now en) = []).
Proof.
  intros Hc Hp Ht Hj Hpl. rewrite <- (before_armed c h Hc). split; [|split].
  - destruct (poll_tuner c h j true now en Hc Hj Ht) as [[_ [Hd [_ ->]]]|[[E _]|[Hd [_ ->]]]]; [|discriminate|].
    + unfold down in Hd. destruct (foot j h false); [congruence|]. rewrite Hp. unfold has_hold. rewrite Hpl. reflexivity.
    + rewrite (proj1 Hd eq_refl). reflexivity.
  - intros Hd Ha. destruct (poll_tuner c h j false now en Hc Hj Ht) as [[E _]|[[_ [_ [_ [l [_ [_ [Hl ->]]]]]]]|[Hx _]]]; [discriminate| |].
    + rewrite Ha, (Hl Hpl), Hp. reflexivity.
    + apply Hx in Hd. discriminate.
  - intros Hn. destruct (poll_tuner c h j false now en Hc Hj Ht) as [[E _]|[[_ [Hd [_ [l [_ [_ [_ ->]]]]]]]|[_ [_ ->]]]]; [discriminate| |reflexivity].
    destruct (before c h); [|reflexivity]. destruct Hn as [Hn|Hn]; [tauto|congruence].
Qed.
Lemma outside c h j p now en : calm c h -> ~ in_tuner h -> (j < tm_n c)%nat -> plain c j ->
  outputs c h (TPoll j p now en) =
  match foot j h false, p with false, true => pushes c j en | true, false => releases c j en | _, _ => [] end.
Proof. intros Hc Ht Hj Hp. apply (poll_normal c h j p now en Hj Ht); auto. Qed.

Lemma poll_no_show c h j p now en b : ~ In (TShow b) (outputs c h (TPoll j p now en)).
Proof.
  destruct (le_lt_dec (tm_n c) j) as [Hj|Hj]; [rewrite out_range by auto; intros []|].
  destruct (poll_out c h j p now en Hj) as [-> _]. generalize (snd (process (tm_switch c j) (tm_sw (st c h) j)
    (mkPoll p now en (if tm_over (st c h) j then Some (tm_accepts c (before c h) p) else None)))).
  intros l. generalize (before c h). induction l as [|e l IH]; intros bf; cbn; [tauto|].
  destruct (tm_handle bf j e) as [b1 e1] eqn:E. destruct (tm_handle_all b1 j l) as [b2 e2] eqn:E2. cbn [snd]. rewrite in_app_iff. intros [X|X].
  - destruct e; cbn in E; [| |inv E; inv X|destruct (negb bf)]; inv E; try (destruct X as [X|[]]; discriminate); inv X.
  - specialize (IH b1). rewrite E2 in IH. exact (IH X).
Qed.
Lemma display c h o b : In (TShow b) (outputs c h o) <->
  (b = true /\ ~ in_tuner h /\ in_tuner (h ++ [o])) \/ (b = false /\ in_tuner h /\ ~ in_tuner (h ++ [o])).
Proof.
  rewrite in_tuner_snoc. destruct o as [j p now en|v|].
  - pose proof (poll_no_show c h j p now en b). tauto.
  - rewrite shown_iff. tauto.
  - cbn. tauto.
Qed.
Lemma lights c h j :
  (In (TDark j) (outputs c h (TValue (Some 1))) <-> tm_process c = false /\ (j < tm_n c)%nat) /\
  (forall v, v <> Some 1 -> (In (TReset j) (outputs c h (TValue v)) <-> (j < tm_n c)%nat)).
Proof.
  assert (forall (f : nat -> tmev) n, (forall x y, f x = f y -> x = y) -> (In (f j) (map f (seq 0 n)) <-> (j < n)%nat)) as Hm.
  { intros f n Hi. rewrite in_map_iff. split.
    - intros [x [E X]]. apply Hi in E. subst. apply in_seq in X. lia.
    - intros H. exists j. split; auto. apply in_seq. lia. }
  unfold outputs. split.
  - cbn [tm_step]. change (1 =? 1) with true. cbn [snd]. rewrite in_app_iff.
    assert (~ In (TDark j) (if eqb (tm_root (Some 1)) (tm_shown (fst (run (tm_step c) (tm_init c) h))) then [] else [TShow (tm_root (Some 1))])) as Hn
      by (destruct (eqb _ _); cbn; intuition discriminate).
    destruct (tm_process c); cbn [negb].
    + cbn [In]. intuition discriminate.
    + rewrite Hm by congruence. tauto.
  - intros v Hv. cbn [tm_step]. pose proof (tm_root_1 v) as Hr. change (match v with Some x => x =? 1 | None => false end) with (tm_root v).
    destruct (tm_root v); [exfalso; apply Hv, Hr; reflexivity|]. cbn [snd]. rewrite in_app_iff, Hm by congruence.
    assert (~ In (TReset j) (if eqb false (tm_shown (fst (run (tm_step c) (tm_init c) h))) then [] else [TShow false])) as Hn
      by (destruct (eqb _ _); cbn; intuition discriminate).
    tauto.
Qed.
