(* C71 *)
From Verif.Lib Require Import Base.
From Verif.Model Require Import Screens.
From Verif.Spec Require Import Screens.

Lemma elem_ind2 (P : elem -> Prop) : (forall i u cs, (forall c, In (Some c) cs -> P c) -> P (Elem i u cs)) -> forall e, P e.
Proof.
  intros H. fix IH 1. intros [i u cs]. apply H. induction cs as [|[c|] cs IHc]; intros c' Hc; [destruct Hc| |].
  - assert (Hp := IH c). destruct Hc as [Hc|Hc]; [injection Hc as <-; exact Hp|apply IHc; exact Hc].
  - destruct Hc as [Hc|Hc]; [discriminate|apply IHc; exact Hc].
Qed.
Definition kids (cs : list (option elem)) : list elem := flat_map (fun c => match c with None => [] | Some c => [c] end) cs.
Lemma kids_in cs c : In c (kids cs) <-> In (Some c) cs.
Proof. unfold kids. rewrite in_flat_map. split; [intros (x & H & Hx); destruct x; [destruct Hx as [<-|[]]; exact H|destruct Hx]|]. intros H. exists (Some c). split; [exact H|left; reflexivity]. Qed.
Lemma parts_kids i u cs : parts (Elem i u cs) = Elem i u cs :: flat_map parts (kids cs).
Proof. cbn. f_equal. unfold kids. induction cs as [|[c|] cs IH]; cbn; [reflexivity| |exact IH]. rewrite IH. reflexivity. Qed.
Lemma parts_self e : In e (parts e).
Proof. destruct e. left. reflexivity. Qed.
Lemma parts_trans c : forall a b, In a (parts b) -> In b (parts c) -> In a (parts c).
Proof.
  induction c as [i u cs IH] using elem_ind2. intros a b Ha Hb. rewrite parts_kids in Hb. destruct Hb as [<-|Hb]; [exact Ha|]. rewrite parts_kids. right.
  apply in_flat_map in Hb. destruct Hb as (k & Hk & Hb). apply in_flat_map. exists k. split; [exact Hk|]. apply kids_in in Hk. eapply IH; eauto.
Qed.
Fixpoint size (e : elem) : nat := match e with Elem _ _ cs => S (list_sum (map (fun c => match c with None => 0%nat | Some c => size c end) cs)) end.
Lemma size_kid i u cs k : In (Some k) cs -> (size k < size (Elem i u cs))%nat.
Proof.
  intros Hk. cbn [size]. apply Nat.lt_succ_r. induction cs as [|c cs IH]; [destruct Hk|]. cbn [map]. unfold list_sum in *. cbn [fold_right]. destruct Hk as [->|Hk]; [lia|]. specialize (IH Hk). lia.
Qed.
Lemma size_part e : forall a, In a (parts e) -> a = e \/ (size a < size e)%nat.
Proof.
  induction e as [i u cs IH] using elem_ind2. intros a Ha. rewrite parts_kids in Ha. destruct Ha as [<-|Ha]; [left; reflexivity|right].
  apply in_flat_map in Ha. destruct Ha as (k & Hk & Ha). apply kids_in in Hk. assert (Hs := size_kid i u cs k Hk). destruct (IH k Hk a Ha) as [->|H]; lia.
Qed.

(* flags are closed on a list of elements *)
Definition closed (l : list elem) (f : flags) : Prop := forall s, In s (flat_map parts l) -> f (eid s) = true -> forall x, In x (ids s) -> f x = true.
Lemma closed_sub l l' f : (forall s, In s l' -> In s (flat_map parts l)) -> closed l f -> closed l' f.
Proof.
  intros H Hc s Hs. apply Hc. apply in_flat_map in Hs. destruct Hs as (k & Hk & Hs). apply H in Hk. apply in_flat_map in Hk. destruct Hk as (r & Hr & Hk).
  apply in_flat_map. exists r. split; [exact Hr|]. eapply parts_trans; eauto.
Qed.
Lemma objects_sub l l' : (forall s, In s l' -> In s (flat_map parts l)) -> objects l -> objects l'.
Proof.
  intros H Hc. assert (G : forall s, In s (flat_map parts l') -> In s (flat_map parts l)).
  { intros s Hs. apply in_flat_map in Hs. destruct Hs as (k & Hk & Hs). apply H in Hk. apply in_flat_map in Hk. destruct Hk as (r & Hr & Hk).
    apply in_flat_map. exists r. split; [exact Hr|]. eapply parts_trans; eauto. }
  intros a b Ha Hb. apply Hc; auto.
Qed.
Lemma in_self l (s : elem) : In s l -> In s (flat_map parts l).
Proof. intros H. apply in_flat_map. exists s. split; [exact H|apply parts_self]. Qed.
Lemma ids_in e x : In x (ids e) <-> exists s, In s (parts e) /\ eid s = x.
Proof. unfold ids. rewrite in_map_iff. split; intros (s & H1 & H2); eauto. Qed.

Lemma initialized_closed e : forall f, closed [e] f -> initialized f e = f (eid e).
Proof.
  induction e as [i u cs IH] using elem_ind2. intros f Hc. cbn [initialized eid]. destruct (f i) eqn:Ei; [|apply andb_false_r]. rewrite andb_true_r. apply forallb_forall.
  intros [c|] Hin; [|reflexivity]. rewrite (IH c Hin f) by (eapply closed_sub; [|exact Hc]; intros s [<-|[]]; cbn [flat_map]; rewrite app_nil_r, parts_kids; right; apply in_self, kids_in; exact Hin).
  apply (Hc (Elem i u cs)); [cbn [flat_map]; rewrite app_nil_r; apply parts_self|exact Ei|]. apply ids_in. exists c. split; [|reflexivity]. rewrite parts_kids. right. apply in_self, kids_in. exact Hin.
Qed.

Definition inits (ev : list uev) : list (nat * nat) := flat_map (fun e => match e with UInit i r => [(i, r)] | _ => [] end) ev.
Definition after (root : nat) (l : list nat) (f f' : flags) (ev : list uev) : Prop :=
  (forall x, f' x = f x || existsb (Nat.eqb x) l) /\ NoDup (map fst (inits ev)) /\ (forall x r, In (x, r) (inits ev) <-> r = root /\ In x l /\ f x = false) /\
  ev = map (fun p => UInit (fst p) (snd p)) (inits ev).
Lemma mem_nat x l : existsb (Nat.eqb x) l = true <-> In x l.
Proof. rewrite existsb_exists. split; [intros (y & Hy & E); apply Nat.eqb_eq in E; subst; exact Hy|]. intros H. exists x. split; [exact H|apply Nat.eqb_refl]. Qed.
Lemma nodup_app_intro {A} (l1 l2 : list A) : NoDup l1 -> NoDup l2 -> (forall x, In x l1 -> ~ In x l2) -> NoDup (l1 ++ l2).
Proof.
  induction 1 as [|x l1 Hx Hn IH]; intros H2 Hd; [exact H2|]. cbn. constructor; [|apply IH; [exact H2|intros y Hy; apply Hd; right; exact Hy]].
  intros H. apply in_app_or in H. destruct H; [contradiction|]. apply (Hd x); [left; reflexivity|assumption].
Qed.

Lemma init_list_spec root cs : (forall c, In (Some c) cs -> forall f f' ev, objects [c] -> closed [c] f -> f (eid c) = false -> init root c f = (f', ev) -> after root (ids c) f f' ev) ->
  forall f f' ev, objects (kids cs) -> closed (kids cs) f -> init_list (init root) cs f = (f', ev) -> after root (flat_map ids (kids cs)) f f' ev.
Proof.
  induction cs as [|[c|] cs IH]; intros Hcs f f' ev Ho Hc H.
  - injection H as <- <-. split; [intros x; cbn; rewrite orb_false_r; reflexivity|]. split; [constructor|]. split; [|reflexivity]. intros x r. cbn. tauto.
  - assert (Hoc : objects [c]) by (eapply objects_sub; [|exact Ho]; intros s [<-|[]]; apply in_self; left; reflexivity).
    assert (Hcc : closed [c] f) by (eapply closed_sub; [|exact Hc]; intros s [<-|[]]; apply in_self; left; reflexivity).
    assert (Ho' : objects (kids cs)) by (eapply objects_sub; [|exact Ho]; intros s Hs; apply in_self; right; exact Hs).
    assert (Hc' : closed (kids cs) f) by (eapply closed_sub; [|exact Hc]; intros s Hs; apply in_self; right; exact Hs).
    cbn [init_list] in H. fold (init_list (init root)) in H. rewrite (initialized_closed c f Hcc) in H. change (kids (Some c :: cs)) with (c :: kids cs). cbn [flat_map].
    destruct (f (eid c)) eqn:Ec.
    + destruct (IH (fun c' Hc'' => Hcs c' (or_intror Hc'')) f f' ev Ho' Hc' H) as (H1 & H2 & H3 & H4). assert (Hall : forall x, In x (ids c) -> f x = true).
      { intros x Hx. apply (Hcc c); [cbn; rewrite app_nil_r; apply parts_self|exact Ec|exact Hx]. }
      split; [|split; [exact H2|split; [|exact H4]]].
      * intros x. rewrite H1, existsb_app. destruct (existsb (Nat.eqb x) (ids c)) eqn:Ex; [|reflexivity]. apply mem_nat in Ex. rewrite Hall by exact Ex. reflexivity.
      * intros x r. rewrite H3, in_app_iff. split; [tauto|]. intros (Hr & [Hx|Hx] & Hf); [rewrite Hall in Hf by exact Hx; discriminate|tauto].
    + destruct (init root c f) as [f1 e1] eqn:E1. destruct (init_list (init root) cs f1) as [f2 e2] eqn:E2. injection H as <- <-.
      destruct (Hcs c (or_introl eq_refl) f f1 e1 Hoc Hcc Ec E1) as (A1 & A2 & A3 & A4).
      assert (Hc1 : closed (kids cs) f1).
      { intros s Hs Hf x Hx. rewrite A1 in *. apply orb_true_iff in Hf. apply orb_true_iff. destruct Hf as [Hf|Hf]; [left; eapply Hc'; eauto|right].
        apply mem_nat in Hf. apply ids_in in Hf. destruct Hf as (s' & Hs' & He). assert (s' = s); [|subst s'].
        { apply Ho; [cbn; apply in_or_app; left; exact Hs'|cbn; apply in_or_app; right; exact Hs|exact He]. }
        apply mem_nat. apply ids_in in Hx. destruct Hx as (y & Hy & <-). apply ids_in. exists y. split; [eapply parts_trans; eauto|reflexivity]. }
      destruct (IH (fun c' Hc'' => Hcs c' (or_intror Hc'')) f1 f2 e2 Ho' Hc1 E2) as (B1 & B2 & B3 & B4).
      assert (Happ : inits (e1 ++ e2) = inits e1 ++ inits e2) by (apply flat_map_app).
      split; [|split; [|split]].
      * intros x. rewrite B1, A1, existsb_app, orb_assoc. reflexivity.
      * rewrite Happ, map_app. apply nodup_app_intro; [exact A2|exact B2|]. intros x H1 H2. apply in_map_iff in H1, H2. destruct H1 as ([x1 r1] & <- & H1), H2 as ([x2 r2] & E & H2). cbn in E. subst x2.
        apply A3 in H1. apply B3 in H2. destruct H1 as (_ & H1 & _), H2 as (_ & _ & H2). rewrite A1 in H2. apply orb_false_iff in H2. apply mem_nat in H1. cbn in H2. destruct H2. congruence.
      * intros x r. rewrite Happ, in_app_iff, A3, B3, in_app_iff, A1, orb_false_iff. destruct (existsb (Nat.eqb x) (ids c)) eqn:Ex.
        -- apply mem_nat in Ex. intuition congruence.
        -- assert (~ In x (ids c)) by (rewrite <- mem_nat; congruence). tauto.
      * rewrite Happ, map_app, <- A4, <- B4. reflexivity.
  - apply (IH (fun c' Hc' => Hcs c' (or_intror Hc')) f f' ev Ho Hc). exact H.
Qed.
Lemma init_spec root e : forall f f' ev, objects [e] -> closed [e] f -> f (eid e) = false -> init root e f = (f', ev) -> after root (ids e) f f' ev.
Proof.
  induction e as [i u cs IH] using elem_ind2. intros f f' ev Ho Hc Hf H. cbn [init] in H. destruct (init_list (init root) cs (set_flag f i)) as [f1 e1] eqn:E1. injection H as <- <-. cbn [eid] in Hf.
  assert (Hp : forall s, In s (flat_map parts (kids cs)) -> In s (flat_map parts [Elem i u cs])) by (intros s Hs; cbn [flat_map]; rewrite app_nil_r, parts_kids; right; exact Hs).
  assert (Hne : forall s, In s (flat_map parts (kids cs)) -> eid s <> i).
  { intros s Hs He. assert (s = Elem i u cs) by (apply Ho; [apply Hp; exact Hs|cbn [flat_map]; rewrite app_nil_r; apply parts_self|exact He]).
    apply in_flat_map in Hs. destruct Hs as (k & Hk & Hs). assert (Hin : In k (parts (Elem i u cs))) by (rewrite parts_kids; right; apply in_self; exact Hk).
    subst s. apply kids_in in Hk. assert (Hlt := size_kid i u cs k Hk). destruct (size_part _ _ Hs) as [<-|Hs1]; lia. }
  assert (Hne' : forall x, In x (flat_map ids (kids cs)) -> x <> i).
  { intros x Hx. apply in_flat_map in Hx. destruct Hx as (k & Hk & Hx). apply ids_in in Hx. destruct Hx as (s & Hs & <-). apply Hne. apply in_flat_map. eauto. }
  assert (Hids : ids (Elem i u cs) = i :: flat_map ids (kids cs)).
  { unfold ids. rewrite parts_kids. cbn [map eid]. f_equal. generalize (kids cs) as l. induction l as [|k l IHl]; [reflexivity|]. cbn. rewrite map_app, IHl. reflexivity. }
  destruct (init_list_spec root cs) with (f := set_flag f i) (f' := f1) (ev := e1) as (A1 & A2 & A3 & A4); [| | |exact E1|].
  - intros c Hin g g' ev Hoc Hcc Hg Hi. eapply IH; eauto.
  - eapply objects_sub; [|exact Ho]. intros s Hs. apply Hp, in_self. exact Hs.
  - intros s Hs Hsf x Hx. unfold set_flag in *. apply orb_true_iff in Hsf. destruct Hsf as [Hsf|Hsf]; [apply Nat.eqb_eq in Hsf; exfalso; eapply Hne; eauto|].
    apply orb_true_iff. right. apply (Hc s); [apply Hp; exact Hs|exact Hsf|exact Hx].
  - rewrite Hids. split; [|split; [|split]].
    + intros x. rewrite A1. unfold set_flag. cbn [existsb]. destruct (x =? i)%nat, (f x), (existsb (Nat.eqb x) (flat_map ids (kids cs))); reflexivity.
    + cbn. constructor; [|exact A2]. intros H. apply in_map_iff in H. destruct H as ([x r] & E & H). cbn in E. subst x. apply A3 in H. destruct H as (_ & H & _). apply (Hne' i H). reflexivity.
    + intros x r. cbn [inits flat_map app]. fold (inits e1). cbn [In]. rewrite A3. unfold set_flag. rewrite orb_false_iff. split.
      * intros [[= <- <-]|(-> & Hx & Hi & Hxf)]; [auto|auto].
      * intros (-> & [<-|Hx] & Hxf); [left; reflexivity|right]. split; [reflexivity|]. split; [exact Hx|]. split; [apply Nat.eqb_neq; apply Hne'; exact Hx|exact Hxf].
    + cbn. f_equal. exact A4.
Qed.

(* ---- histories ---- *)
Definition is_in (i : nat) (r : elem) : bool := existsb (Nat.eqb i) (ids r).
Record sinv (ops : list uop) (s : screens) (ev : list uev) : Prop := {
  v_flags : forall x, sc_flags s x = existsb (is_in x) (roots ops);
  v_cur : sc_cur s = option_map eid (hd_error (rev (roots ops)));
  v_upd : sc_upd s = match hd_error (rev (roots ops)) with Some r => updateables r | None => [] end;
  v_drawn : forall x, drawn_in x ev = match find (is_in x) (roots ops) with Some r => [eid r] | None => [] end;
  v_shown : shown ev = changes (map eid (roots ops)) }.

Lemma roots_app a b : roots (a ++ b) = roots a ++ roots b.
Proof. apply flat_map_app. Qed.
Lemma find_snoc {A} (g : A -> bool) l x : find g (l ++ [x]) = match find g l with Some y => Some y | None => if g x then Some x else None end.
Proof. induction l as [|y l IH]; cbn; [reflexivity|]. destruct (g y); [reflexivity|exact IH]. Qed.
Lemma find_exists {A} (g : A -> bool) l : existsb g l = match find g l with Some _ => true | None => false end.
Proof. induction l as [|y l IH]; cbn; [reflexivity|]. destruct (g y); [reflexivity|exact IH]. Qed.
Lemma changes_snoc l x : changes (l ++ [x]) = if match hd_error (rev l) with Some y => (x =? y)%nat | None => false end then changes l else changes l ++ [x].
Proof.
  induction l as [|a l IH]; [reflexivity|]. destruct l as [|b l].
  - cbn. rewrite (Nat.eqb_sym x a). destruct (Nat.eqb_spec a x) as [->|]; reflexivity.
  - change ((a :: b :: l) ++ [x]) with (a :: b :: (l ++ [x])). change (rev (a :: b :: l)) with (rev (b :: l) ++ [a]).
    assert (Hr : exists y t, rev (b :: l) = y :: t). { destruct (rev (b :: l)) eqn:E; [apply (f_equal (@rev nat)) in E; rewrite rev_involutive in E; discriminate|eauto]. }
    destruct Hr as (y & t & Hr). rewrite Hr in IH |- *. cbn [app hd_error] in *. change (changes (a :: b :: l ++ [x])) with (if (a =? b)%nat then changes (b :: l ++ [x]) else a :: changes (b :: l ++ [x])).
    change (changes (a :: b :: l)) with (if (a =? b)%nat then changes (b :: l) else a :: changes (b :: l)). rewrite IH. destruct (a =? b)%nat, (x =? y)%nat; reflexivity.
Qed.
Lemma roots_closed rs r f : objects (rs ++ [r]) -> (forall x, f x = existsb (is_in x) rs) -> closed [r] f.
Proof.
  intros Ho Hf s Hs H x Hx. rewrite Hf in *. apply existsb_exists in H. destruct H as (r' & Hr' & H). apply mem_nat, ids_in in H. destruct H as (s' & Hs' & He).
  assert (s' = s); [|subst s'].
  { apply Ho; [|rewrite flat_map_app; apply in_or_app; right; exact Hs|exact He]. rewrite flat_map_app. apply in_or_app. left. apply in_flat_map. eauto. }
  apply existsb_exists. exists r'. split; [exact Hr'|]. apply mem_nat. apply ids_in in Hx. destruct Hx as (y & Hy & <-). apply ids_in. exists y. split; [eapply parts_trans; eauto|reflexivity].
Qed.
Lemma drawn_app x a b : drawn_in x (a ++ b) = drawn_in x a ++ drawn_in x b.
Proof. apply flat_map_app. Qed.
Lemma shown_app a b : shown (a ++ b) = shown a ++ shown b.
Proof. apply flat_map_app. Qed.
Lemma drawn_inits x l : NoDup (map fst l) -> forall root, (forall i r, In (i, r) l -> r = root) ->
  drawn_in x (map (fun p => UInit (fst p) (snd p)) l) = if existsb (Nat.eqb x) (map fst l) then [root] else [].
Proof.
  induction l as [|[i r] l IH]; intros Hn root Hr; [reflexivity|]. cbn [map fst snd] in *. inv Hn.
  change (drawn_in x (UInit i r :: map (fun p => UInit (fst p) (snd p)) l)) with ((if (i =? x)%nat then [r] else []) ++ drawn_in x (map (fun p => UInit (fst p) (snd p)) l)).
  rewrite (IH H2 root) by (intros; eapply Hr; right; eauto). cbn [existsb]. rewrite (Nat.eqb_sym i x). destruct (Nat.eqb_spec x i) as [->|]; cbn [orb]; [|reflexivity].
  destruct (existsb (Nat.eqb i) (map fst l)) eqn:E; [apply mem_nat in E; contradiction|]. rewrite (Hr i r) by (left; reflexivity). reflexivity.
Qed.

Lemma sinv_all ops : objects (roots ops) -> sinv ops (fst (run ustep sc_init ops)) (snd (run ustep sc_init ops)).
Proof.
  induction ops as [|ops o IH] using rev_ind_snoc; intros Ho.
  - split; reflexivity.
  - rewrite roots_app in Ho. assert (Ho' : objects (roots ops)) by (eapply objects_sub; [|exact Ho]; intros s Hs; apply in_self, in_or_app; auto).
    specialize (IH Ho'). rewrite run_snoc. destruct (run ustep sc_init ops) as [s ev]. cbn [fst snd] in *. destruct IH as [If Ic Iu Id Is].
    destruct o as [r|]; cbn [roots flat_map app] in Ho.
    2:{ cbn [ustep fst snd]. split; rewrite ?roots_app; cbn [roots flat_map]; rewrite ?app_nil_r; auto.
        - intros x. rewrite drawn_app, Id. replace (drawn_in x (map UUpd (sc_upd s))) with (@nil nat); [apply app_nil_r|]. clear; induction (sc_upd s); [reflexivity|exact IHl].
        - rewrite shown_app, Is. replace (shown (map UUpd (sc_upd s))) with (@nil nat); [apply app_nil_r|]. clear; induction (sc_upd s); [reflexivity|exact IHl]. }
    assert (Hr : roots (ops ++ [UShow r]) = roots ops ++ [r]) by (rewrite roots_app; reflexivity). cbn [ustep]. rewrite Ic.
    assert (Hlast : forall r0, hd_error (rev (roots ops)) = Some r0 -> In r0 (roots ops)).
    { intros r0 H. rewrite <- (rev_involutive (roots ops)). apply in_rev. rewrite rev_involutive. destruct (rev (roots ops)); [discriminate|]. injection H as <-. left. reflexivity. }
    assert (Hsh : changes (map eid (roots ops ++ [r])) = if match option_map eid (hd_error (rev (roots ops))) with Some c => (eid r =? c)%nat | None => false end
        then changes (map eid (roots ops)) else changes (map eid (roots ops)) ++ [eid r]).
    { rewrite map_app. cbn [map]. rewrite changes_snoc. rewrite <- map_rev. destruct (rev (roots ops)); reflexivity. }
    destruct (match option_map eid (hd_error (rev (roots ops))) with Some c => (eid r =? c)%nat | None => false end) eqn:E.
    + destruct (hd_error (rev (roots ops))) as [r0|] eqn:El; [|discriminate E]. cbn in E. apply Nat.eqb_eq in E. assert (Hin := Hlast r0 eq_refl).
      assert (r = r0); [|subst r0]. { apply Ho; [rewrite flat_map_app; apply in_or_app; right; apply in_self; left; reflexivity|rewrite flat_map_app; apply in_or_app; left; apply in_self; exact Hin|exact E]. }
      cbn [fst snd]. rewrite app_nil_r. split; rewrite ?Hr.
      * intros x. rewrite existsb_app, If. cbn. rewrite orb_false_r. destruct (is_in x r) eqn:Ex; [|rewrite orb_false_r; reflexivity]. rewrite orb_true_r. apply existsb_exists. eauto.
      * rewrite rev_app_distr. cbn. exact Ic.
      * rewrite rev_app_distr. cbn. exact Iu.
      * intros x. rewrite find_snoc, Id. destruct (find (is_in x) (roots ops)) eqn:Ef; [reflexivity|]. destruct (is_in x r) eqn:Ex; [|reflexivity].
        exfalso. assert (existsb (is_in x) (roots ops) = true) by (apply existsb_exists; eauto). rewrite find_exists, Ef in H. discriminate.
      * rewrite Hsh. exact Is.
    + assert (Hcl := roots_closed (roots ops) r (sc_flags s) Ho If). rewrite (initialized_closed r (sc_flags s) Hcl).
      assert (Hor : objects [r]) by (eapply objects_sub; [|exact Ho]; intros z [<-|[]]; apply in_self, in_or_app; right; left; reflexivity).
      assert (G : forall f e, (if sc_flags s (eid r) then (sc_flags s, []) else init (eid r) r (sc_flags s)) = (f, e) -> after (eid r) (ids r) (sc_flags s) f e).
      { intros f e. destruct (sc_flags s (eid r)) eqn:Ef.
        - intros [= <- <-]. assert (Hall : forall x, In x (ids r) -> sc_flags s x = true) by (intros x Hx; apply (Hcl r); [apply in_self; left; reflexivity|exact Ef|exact Hx]).
          split; [|split; [constructor|split; [|reflexivity]]].
          + intros x. destruct (existsb (Nat.eqb x) (ids r)) eqn:Ex; [|rewrite orb_false_r; reflexivity]. apply mem_nat in Ex. rewrite Hall by exact Ex. reflexivity.
          + intros x q. cbn. split; [tauto|]. intros (_ & Hx & Hfx). rewrite Hall in Hfx by exact Hx. discriminate.
        - intros H. apply init_spec; assumption. }
      destruct (if sc_flags s (eid r) then (sc_flags s, []) else init (eid r) r (sc_flags s)) as [f e] eqn:Ei. destruct (G f e eq_refl) as (A1 & A2 & A3 & A4). clear G.
      cbn [fst snd]. split; cbn [sc_flags sc_cur sc_upd]; rewrite ?Hr.
      * intros x. rewrite A1, If, existsb_app. cbn. rewrite orb_false_r. reflexivity.
      * rewrite rev_app_distr. reflexivity.
      * rewrite rev_app_distr. reflexivity.
      * intros x. rewrite !drawn_app, Id, find_snoc. cbn [drawn_in flat_map]. rewrite !app_nil_r. rewrite A4, (drawn_inits x (inits e) A2 (eid r)) by (intros i q Hq; apply A3 in Hq; apply Hq).
        assert (Hm : existsb (Nat.eqb x) (map fst (inits e)) = is_in x r && negb (existsb (is_in x) (roots ops))).
        { rewrite <- If. apply eq_true_iff_eq. rewrite mem_nat, in_map_iff, andb_true_iff, negb_true_iff. unfold is_in. rewrite mem_nat. split.
          - intros ([y q] & <- & Hy). apply A3 in Hy. tauto.
          - intros (Hx & Hfx). exists (x, eid r). split; [reflexivity|]. apply A3. auto. }
        rewrite Hm, find_exists. destruct (find (is_in x) (roots ops)) as [y|]; cbn [negb]; [rewrite andb_false_r; reflexivity|rewrite andb_true_r; destruct (is_in x r); reflexivity].
      * rewrite !shown_app, Is, Hsh. replace (shown e) with (@nil nat); [reflexivity|]. rewrite A4. clear. induction (inits e) as [|p l IHl]; [reflexivity|exact IHl].
Qed.

Lemma updateables_parts r : updateables r = map eid (filter is_updateable (parts r)).
Proof.
  induction r as [i u cs IH] using elem_ind2. cbn [updateables parts filter is_updateable].
  assert (H : flat_map (fun c => match c with None => [] | Some c => updateables c end) cs = map eid (filter is_updateable (flat_map (fun c => match c with None => [] | Some c => parts c end) cs))).
  { induction cs as [|[c|] cs IHc]; [reflexivity| |].
    - cbn. rewrite filter_app, map_app, IHc by (intros; apply IH; right; assumption). rewrite (IH c) by (left; reflexivity). reflexivity.
    - cbn. apply IHc. intros; apply IH; right; assumption. }
  rewrite H. destruct u; reflexivity.
Qed.

Lemma drawn_first ops x : objects (roots ops) ->
  drawn_in x (snd (run ustep sc_init ops)) = match find (is_in x) (roots ops) with Some r => [eid r] | None => [] end.
Proof. intros H. apply (v_drawn _ _ _ (sinv_all ops H)). Qed.
Lemma shown_changes ops : objects (roots ops) -> shown (snd (run ustep sc_init ops)) = changes (map eid (roots ops)).
Proof. intros H. apply (v_shown _ _ _ (sinv_all ops H)). Qed.
Lemma update_visible ops rs r : objects (roots ops) -> roots ops = rs ++ [r] ->
  snd (ustep (fst (run ustep sc_init ops)) UUpdate) = map UUpd (map eid (filter is_updateable (parts r))).
Proof. intros H Hr. cbn. rewrite (v_upd _ _ _ (sinv_all ops H)), Hr, rev_app_distr. cbn. rewrite updateables_parts. reflexivity. Qed.

(* order *)
Lemma initialized_own f e : f (eid e) = false -> initialized f e = false.
Proof. destruct e. cbn. intros ->. apply andb_false_r. Qed.
Lemma init_order root e : forall f, NoDup (ids e) -> (forall x, In x (ids e) -> f x = false) ->
  snd (init root e f) = map (fun i => UInit i root) (ids e) /\ forall x, fst (init root e f) x = f x || existsb (Nat.eqb x) (ids e).
Proof.
  induction e as [i u cs IH] using elem_ind2. intros f Hn Hf.
  assert (Hids : ids (Elem i u cs) = i :: flat_map ids (kids cs)).
  { unfold ids. rewrite parts_kids. cbn [map eid]. f_equal. generalize (kids cs) as l. induction l as [|k l IHl]; [reflexivity|]. cbn. rewrite map_app, IHl. reflexivity. }
  rewrite Hids in *. inv Hn.
  assert (G : forall l g, (forall c, In (Some c) l -> In (Some c) cs) -> NoDup (flat_map ids (kids l)) -> (forall x, In x (flat_map ids (kids l)) -> g x = false) ->
    snd (init_list (init root) l g) = map (fun i => UInit i root) (flat_map ids (kids l)) /\ forall x, fst (init_list (init root) l g) x = g x || existsb (Nat.eqb x) (flat_map ids (kids l))).
  { induction l as [|[c|] l IHl]; intros g Hl Hnd Hg.
    - split; [reflexivity|]. intros x. cbn. rewrite orb_false_r. reflexivity.
    - change (kids (Some c :: l)) with (c :: kids l) in *. cbn [flat_map] in *. cbn [init_list]. fold (init_list (init root)).
      assert (Hc : In (eid c) (ids c)) by (apply ids_in; exists c; split; [apply parts_self|reflexivity]).
      rewrite initialized_own by (apply Hg, in_or_app; left; exact Hc).
      assert (Hn2 : NoDup (ids c) /\ NoDup (flat_map ids (kids l)) /\ forall x, In x (ids c) -> ~ In x (flat_map ids (kids l))).
      { clear -Hnd. induction (ids c) as [|y t IHt]; cbn in *; [split; [constructor|auto]|]. inv Hnd. destruct (IHt H2) as (Ha & Hb & Hd). split; [constructor; [|exact Ha]; intros H; apply H1; apply in_or_app; auto|].
        split; [exact Hb|]. intros x [<-|Hx]; [intros H; apply H1; apply in_or_app; auto|auto]. }
      destruct Hn2 as (Hn1 & Hn2 & Hdis). destruct (IH c (Hl c (or_introl eq_refl)) g Hn1) as (A1 & A2); [intros x Hx; apply Hg, in_or_app; auto|].
      destruct (init root c g) as [g1 e1] eqn:E1. cbn [fst snd] in *. destruct (IHl g1) as (B1 & B2); [intros c' Hc'; apply Hl; right; exact Hc'|exact Hn2| |].
      + intros x Hx. rewrite A2. apply orb_false_iff. split; [apply Hg, in_or_app; auto|]. apply not_true_iff_false. rewrite mem_nat. intros Hx'. eapply Hdis; eauto.
      + destruct (init_list (init root) l g1) as [g2 e2]. cbn [fst snd] in *. split; [rewrite map_app, A1, B1; reflexivity|]. intros x. rewrite B2, A2, existsb_app, orb_assoc. reflexivity.
    - apply (IHl g); [intros c Hc; apply Hl; right; exact Hc|exact Hnd|exact Hg]. }
  cbn [init]. destruct (G cs (set_flag f i)) as (A1 & A2); [auto|assumption| |].
  - intros x Hx. unfold set_flag. apply orb_false_iff. split; [apply Nat.eqb_neq; intros ->; contradiction|apply Hf; right; exact Hx].
  - destruct (init_list (init root) cs (set_flag f i)) as [f1 e1]. cbn [fst snd] in *. split; [cbn; rewrite A1; reflexivity|]. intros x. rewrite A2. unfold set_flag. cbn [existsb].
    destruct (x =? i)%nat, (f x), (existsb (Nat.eqb x) (flat_map ids (kids cs))); reflexivity.
Qed.
Lemma new_screen ops r : objects (roots ops ++ [r]) -> NoDup (ids r) -> (forall x, In x (ids r) -> forall r', In r' (roots ops) -> ~ In x (ids r')) ->
  snd (ustep (fst (run ustep sc_init ops)) (UShow r)) = map (fun i => UInit i (eid r)) (ids r) ++ [UScreen (eid r)].
Proof.
  intros Ho Hn Hx. assert (Ho' : objects (roots ops)) by (eapply objects_sub; [|exact Ho]; intros s Hs; apply in_self, in_or_app; auto).
  assert (I := sinv_all ops Ho'). destruct (run ustep sc_init ops) as [s ev]. cbn [fst snd] in *. destruct I as [If Ic _ _ _].
  assert (Hself : In (eid r) (ids r)) by (apply ids_in; exists r; split; [apply parts_self|reflexivity]).
  cbn [ustep]. rewrite Ic. destruct (hd_error (rev (roots ops))) as [r0|] eqn:El.
  - assert (Hin : In r0 (roots ops)). { rewrite <- (rev_involutive (roots ops)). apply in_rev. rewrite rev_involutive. destruct (rev (roots ops)); [discriminate|]. injection El as <-. left. reflexivity. }
    cbn [option_map]. destruct (Nat.eqb_spec (eid r) (eid r0)) as [E|E].
    + exfalso. apply (Hx _ Hself r0 Hin). rewrite E. apply ids_in. exists r0. split; [apply parts_self|reflexivity].
    + rewrite initialized_own.
      * destruct (init_order (eid r) r (sc_flags s) Hn) as (A & _).
        { intros x Hi. rewrite If. apply not_true_iff_false. rewrite existsb_exists. intros (r' & Hr' & H). apply mem_nat in H. eapply Hx; eauto. }
        destruct (init (eid r) r (sc_flags s)) as [f e]. cbn [snd] in *. rewrite A. reflexivity.
      * rewrite If. apply not_true_iff_false. rewrite existsb_exists. intros (r' & Hr' & H). apply mem_nat in H. eapply Hx; eauto.
  - cbn [option_map]. rewrite initialized_own.
    + destruct (init_order (eid r) r (sc_flags s) Hn) as (A & _).
      { intros x Hi. rewrite If. apply not_true_iff_false. rewrite existsb_exists. intros (r' & Hr' & H). apply mem_nat in H. eapply Hx; eauto. }
      destruct (init (eid r) r (sc_flags s)) as [f e]. cbn [snd] in *. rewrite A. reflexivity.
    + rewrite If. apply not_true_iff_false. rewrite existsb_exists. intros (r' & Hr' & H). apply mem_nat in H. eapply Hx; eauto.
Qed.

Lemma drawn_once ops x before r later : objects (roots ops) -> roots ops = before ++ r :: later ->
  In x (ids r) -> (forall r', In r' before -> ~ In x (ids r')) -> drawn_in x (snd (run ustep sc_init ops)) = [eid r].
Proof.
  intros Ho Hr Hx Hb. rewrite drawn_first by exact Ho. rewrite Hr. replace (find (is_in x) (before ++ r :: later)) with (Some r); [reflexivity|].
  clear -Hx Hb. induction before as [|b before IH]; cbn [app find].
  - assert (E : is_in x r = true) by (apply mem_nat; exact Hx). rewrite E. reflexivity.
  - destruct (is_in x b) eqn:E; [apply mem_nat in E; exfalso; apply (Hb b); [left; reflexivity|exact E]|]. apply IH. intros r' H'. apply Hb. right. exact H'.
Qed.
Lemma drawn_never ops x : objects (roots ops) -> (forall r, In r (roots ops) -> ~ In x (ids r)) -> drawn_in x (snd (run ustep sc_init ops)) = [].
Proof.
  intros Ho Hb. rewrite drawn_first by exact Ho. destruct (find (is_in x) (roots ops)) as [r|] eqn:E; [|reflexivity].
  apply find_some in E. destruct E as (H1 & H2). apply mem_nat in H2. exfalso. exact (Hb r H1 H2).
Qed.
Lemma update_nothing ops : roots ops = [] -> snd (ustep (fst (run ustep sc_init ops)) UUpdate) = [].
Proof. intros H. cbn. assert (Ho : objects (roots ops)) by (rewrite H; intros a b []). rewrite (v_upd _ _ _ (sinv_all ops Ho)), H. reflexivity. Qed.
