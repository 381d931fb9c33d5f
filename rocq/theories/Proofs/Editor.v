From Verif.Lib Require Import Base.
From Verif.Model Require Import Editor.
From Verif.Spec Require Import Editor.
From Coq Require Import String.
Local Open Scope list_scope.

(* ---- induction on nested terms ---- *)
Lemma expr_ind2 (P : expr -> Prop) :
  (forall x, P (EName x)) -> (forall f args, Forall (fun a => P (snd a)) args -> P (ECall f args)) ->
  (forall items, Forall (fun a => P (snd a)) items -> P (EDict items)) ->
  (forall items, Forall (fun a => P (snd a)) items -> P (EList items)) -> (forall c, P (EOther c)) -> forall e, P e.
Proof.
  intros Hn Hc Hd Hl Ho. fix IH 1. intros [x|f args|items|items|c].
  - apply Hn.
  - apply Hc. induction args as [|[q a] args IHa]; constructor; [apply IH|apply IHa].
  - apply Hd. induction items as [|[q a] args IHa]; constructor; [apply IH|apply IHa].
  - apply Hl. induction items as [|[q a] args IHa]; constructor; [apply IH|apply IHa].
  - apply Ho.
Qed.
Lemma data_ind2 (P : data -> Prop) :
  (forall e, P (DCode e)) -> (forall l, Forall P l -> P (DList l)) ->
  (forall f args a, Forall (fun x => P (snd x)) args -> P (DCall f args a)) ->
  (forall items a, Forall (fun x => P (snd x)) items -> P (DDict items a)) ->
  (forall v a, P v -> P (DVal v a)) -> forall d, P d.
Proof.
  intros He Hl Hc Hd Hv. fix IH 1. intros [e|l|f args a|items a|v a].
  - apply He.
  - apply Hl. induction l as [|x l IHl]; constructor; [apply IH|apply IHl].
  - apply Hc. induction args as [|[q x] args IHa]; constructor; [apply IH|apply IHa].
  - apply Hd. induction items as [|[q x] args IHa]; constructor; [apply IH|apply IHa].
  - apply Hv. apply IH.
Qed.

(* ---- assignments ---- *)
Lemma is_target_in x ts : existsb (is_target x) ts = true <-> In (TName x) ts.
Proof.
  rewrite existsb_exists. split.
  - intros ([y|c] & Hin & Ht); cbn in Ht; [|discriminate]. apply String.eqb_eq in Ht. subst y. exact Hin.
  - intros H. exists (TName x). split; [exact H|]. cbn. apply String.eqb_refl.
Qed.
Lemma assigns_small_iff x s : assigns_small x s = true <-> assigns x s.
Proof.
  unfold assigns_small, assigns. destruct s as [ts e|c].
  - rewrite is_target_in. split; [eauto|]. intros (ts' & e' & [= <- <-] & H). exact H.
  - split; [discriminate|]. intros (ts' & e' & [=] & _).
Qed.
Lemma assigned_iff m x : existsb (assigns_stmt x) m = true <-> assigned m x.
Proof.
  rewrite existsb_exists. unfold assigned, smalls. split.
  - intros ([a r|c] & Hin & Hs); cbn [assigns_stmt] in Hs; [|discriminate]. apply existsb_exists in Hs. destruct Hs as (s & Hs & Ha).
    exists s. split; [apply in_flat_map; exists (SLine a r); split; auto|apply assigns_small_iff; exact Ha].
  - intros (s & Hin & Ha). apply in_flat_map in Hin. destruct Hin as ([a r|c] & Hin & Hs); [|destruct Hs].
    exists (SLine a r). split; [exact Hin|]. cbn [assigns_stmt]. apply existsb_exists. exists s. split; [exact Hs|]. apply assigns_small_iff. exact Ha.
Qed.
Lemma lookup_found m x e : lookup m x = Some e -> exists ts, In (MAssign ts e) (smalls m) /\ In (TName x) ts.
Proof.
  induction m as [|s m IH]; cbn; [discriminate|]. destruct s as [[ts v|c] r|c].
  - destruct (existsb (is_target x) ts) eqn:E.
    + intros [= ->]. apply is_target_in in E. exists ts. split; [left; reflexivity|exact E].
    + intros H. destruct (IH H) as (ts' & H1 & H2). exists ts'. split; [|exact H2]. right. apply in_or_app. right. exact H1.
  - intros H. destruct (IH H) as (ts' & H1 & H2). exists ts'. split; [|exact H2]. right. apply in_or_app. right. exact H1.
  - intros H. exact (IH H).
Qed.

Lemma replace_small_same x e s : (forall ts v, s = MAssign ts v -> In (TName x) ts -> v = e) -> replace_small x e s = s.
Proof.
  intros H. destruct s as [ts v|c]; cbn; [|reflexivity]. destruct (existsb (is_target x) ts) eqn:E; [|reflexivity].
  apply is_target_in in E. rewrite (H ts v eq_refl E). reflexivity.
Qed.
Lemma map_same {A} (f : A -> A) l : (forall x, In x l -> f x = x) -> map f l = l.
Proof. induction l as [|x l IH]; cbn; intros H; [reflexivity|]. rewrite (H x), IH; auto. Qed.

Lemma set_same b m x e : once m x -> lookup m x = Some e -> set_assignment b x e m = m.
Proof.
  intros Ho Hl. destruct (lookup_found _ _ _ Hl) as (ts & Hin & Ht).
  assert (Hall : forall ts' v, In (MAssign ts' v) (smalls m) -> In (TName x) ts' -> v = e).
  { intros ts' v Hin' Ht'. destruct (in_split _ _ Hin) as (l1 & l2 & Hsp).
    rewrite Hsp in Hin'. apply in_app_or in Hin'. assert (Ha : assigns x (MAssign ts e)) by (unfold assigns; eauto).
    assert (Hn := Ho _ _ _ Hsp Ha (MAssign ts' v)). destruct Hin' as [Hi|[Hi|Hi]].
    - exfalso. apply Hn; [apply in_or_app; auto|unfold assigns; eauto].
    - congruence.
    - exfalso. apply Hn; [apply in_or_app; auto|unfold assigns; eauto]. }
  unfold set_assignment. assert (Ha : existsb (assigns_stmt x) m = true).
  { apply assigned_iff. exists (MAssign ts e). split; [exact Hin|unfold assigns; eauto]. }
  rewrite Ha. apply map_same. intros s Hs. destruct s as [a r|c]; cbn; [|reflexivity].
  assert (Hsm : forall s, In s (a :: r) -> In s (smalls m)) by (intros s Hx; apply in_flat_map; exists (SLine a r); auto).
  f_equal.
  - apply replace_small_same. intros ts' v -> Hx. eapply Hall; [apply Hsm; left; reflexivity|exact Hx].
  - apply map_same. intros s Hx. apply replace_small_same. intros ts' v -> Hy. eapply Hall; [apply Hsm; right; exact Hx|exact Hy].
Qed.

(* ---- opening and saving ---- *)
Definition ref (d : data) : expr := match bound d with Some x => EName x | None => body d end.

Lemma mapM_spec {A B} (f : A -> option B) l ys : mapM f l = Some ys <-> Forall2 (fun x y => f x = Some y) l ys.
Proof.
  revert ys. induction l as [|x l IH]; intros ys; cbn.
  - split; [intros [= <-]; constructor|intros H; inv H; reflexivity].
  - destruct (f x) as [y|] eqn:E.
    + destruct (mapM f l) as [zs|] eqn:E2.
      * split; [intros [= <-]; constructor; [exact E|apply IH; reflexivity]|]. intros H. inv H.
        match goal with H : Forall2 _ l _ |- _ => apply IH in H end. congruence.
      * split; [discriminate|]. intros H. inv H. match goal with H : Forall2 _ l _ |- _ => apply IH in H end. discriminate.
    + split; [discriminate|]. intros H. inv H. congruence.
Qed.

Lemma gen_list_same {A} (g : A -> module -> option (expr * module)) l es m :
  Forall2 (fun d e => g d m = Some (e, m)) l es -> gen_list g l m = Some (es, m).
Proof. induction 1 as [|d e l es H1 H2 IH]; cbn; [reflexivity|]. cbn in IH. rewrite H1, IH. reflexivity. Qed.

Section Open.
  Context (known : expr -> list string) (m : module) (root : string) (T : tidy known m root).

  Lemma parse_unbound n e d : parse known n m e = Some d -> (forall y, e = EName y -> lookup m y = None) -> bound d = None.
  Proof.
    destruct n as [|n]; [discriminate|]. intros H Hy. destruct e; cbn in H.
    - rewrite (Hy _ eq_refl) in H. injection H as <-. reflexivity.
    - destruct (mapM _ args); inv H. reflexivity.
    - destruct (mapM _ items); inv H. reflexivity.
    - destruct (mapM _ items); inv H. reflexivity.
    - inv H. reflexivity.
  Qed.

  Definition inside (e : expr) : Prop := forall x, In x (mentions e) ->
    reached m root x /\ forall e0, lookup m root = Some e0 -> e0 <> EList [].

  Lemma reached_inside x e : reached m root x -> lookup m x = Some e -> inside e.
  Proof.
    intros Hr He y Hy. split; [eapply reached_next; eauto|]. intros e0 H0.
    assert (Hne : mentions e0 <> []).
    { clear -Hr H0 He Hy. revert e y He Hy. induction Hr as [|x e' z Hr IH Hl Hm]; intros e y He Hy.
      - rewrite H0 in He. injection He as ->. intros Hc. rewrite Hc in Hy. destruct Hy.
      - eapply IH; eauto. }
    intros ->. apply Hne. reflexivity.
  Qed.

  Lemma args_named f args : plain known (ECall f args) -> arg_names (known f) args = map (fun a => snd (fst a)) args.
  Proof.
    cbn [plain]. intros H. destruct (known f) as [|k ks] eqn:Ek.
    - clear H. induction args as [|[[s [kw|]] a] args IH]; cbn; [reflexivity| |]; f_equal; exact IH.
    - generalize (k :: ks). induction args as [|[[s kw] a] args IH]; cbn in *; intros l; [reflexivity|].
      destruct H as (_ & Hk & _ & H). destruct kw as [kw|]; [|exfalso; apply Hk; [discriminate|reflexivity]].
      f_equal. apply IH. exact H.
  Qed.
  Lemma plain_call f args : plain known (ECall f args) -> Forall (fun a => fst (fst a) = false /\ plain known (snd a)) args.
  Proof.
    cbn [plain]. induction args as [|[[s kw] a] args IH]; intros H; constructor.
    - cbn. destruct H as (-> & _ & H & _). auto.
    - apply IH. apply H.
  Qed.
  Lemma plain_dict items : plain known (EDict items) -> Forall (fun a => (exists s, fst a = KText s) /\ plain known (snd a)) items.
  Proof.
    cbn [plain]. induction items as [|[k a] args IH]; intros H; constructor.
    - cbn. destruct H as (Hk & H & _). auto.
    - apply IH. apply H.
  Qed.
  Lemma plain_list items : plain known (EList items) -> Forall (fun a => fst a = false /\ plain known (snd a)) items.
  Proof.
    cbn [plain]. induction items as [|[k a] args IH]; intros H; constructor.
    - cbn. destruct H as (Hk & H & _). auto.
    - apply IH. apply H.
  Qed.

  Lemma gen_parse n : forall e d, parse known n m e = Some d -> plain known e -> inside e -> gen root d m = Some (e, m).
  Proof.
    induction n as [|n IH]; [discriminate|]. intros e d Hp Hpl Hin. destruct e as [x|f args|items|items|c]; cbn [parse] in Hp.
    - destruct (lookup m x) as [e'|] eqn:El; [|injection Hp as <-; reflexivity].
      destruct (parse known n m e') as [d'|] eqn:Ep; [|discriminate]. injection Hp as <-.
      destruct (Hin x (or_introl eq_refl)) as (Hr & He0).
      destruct (T x e' Hr El) as (Ho & Hpe & Hna & Hne).
      assert (Hg := IH e' d' Ep Hpe (reached_inside x e' Hr El)).
      assert (Hb := parse_unbound _ _ _ Ep Hna).
      assert (Hne' : e' <> EList []).
      { destruct (string_dec x root) as [->|Hx]; [|auto]. apply He0. exact El. }
      assert (Hs := set_same (Some root) m x e' Ho El).
      destruct d' as [c|l|f a o|i o|v o]; cbn [bound] in Hb; try subst o; cbn [with_assign gen truthy].
      + cbn [gen] in Hg. injection Hg as ->. cbn. rewrite Hs. reflexivity.
      + destruct l as [|y l].
        * cbn in Hg. injection Hg as Hg. congruence.
        * cbn [gen] in Hg. destruct (gen_list (gen root) (y :: l) m) as [[es m1]|]; [|discriminate]. injection Hg as He Hm. subst m1.
          cbn [resolve]. rewrite He, Hs. reflexivity.
      + cbn [gen] in Hg. destruct (gen_list _ a m) as [[es m1]|]; [|discriminate]. injection Hg as He Hm. subst m1.
        cbn [resolve]. rewrite He, Hs. reflexivity.
      + cbn [gen] in Hg. destruct (gen_list _ i m) as [[es m1]|]; [|discriminate]. injection Hg as He Hm. subst m1.
        cbn [resolve]. rewrite He, Hs. reflexivity.
      + exfalso. destruct n as [|n0]; [discriminate|]. destruct e' as [y|f a|i|i|c]; cbn [parse] in Ep.
        * rewrite (Hna y eq_refl) in Ep. discriminate.
        * destruct (mapM _ a); discriminate.
        * destruct (mapM _ i); discriminate.
        * destruct (mapM _ i); discriminate.
        * discriminate.
    - destruct (mapM _ args) as [ds|] eqn:Em; [|discriminate]. injection Hp as <-. rewrite mapM_spec in Em.
      rewrite (args_named f args Hpl). apply plain_call in Hpl. cbn [gen].
      assert (Hg : gen_list (fun x => gen root (snd x)) (combine (map (fun a => snd (fst a)) args) ds) m = Some (map snd args, m)).
      { apply gen_list_same. unfold inside in Hin. cbn [mentions] in Hin. clear -Em Hin Hpl IH.
        induction Em as [|[[s k] a] d args ds H1 H2 IHe]; cbn; constructor.
        - cbn. inv Hpl. apply (IH a d); [exact H1|apply H3|]. intros x Hx. apply Hin. cbn. apply in_or_app. auto.
        - inv Hpl. apply IHe; [assumption|]. intros x Hx. apply Hin. cbn. apply in_or_app. auto. }
      rewrite Hg. cbn [resolve]. do 3 f_equal. clear -Em Hpl.
      induction Em as [|[[s k] a] d args ds H1 H2 IHe]; cbn; [reflexivity|]. inv Hpl. cbn in *. destruct H3 as (-> & _). f_equal. auto.
    - destruct (mapM _ items) as [ds|] eqn:Em; [|discriminate]. injection Hp as <-. rewrite mapM_spec in Em.
      apply plain_dict in Hpl. cbn [gen].
      assert (Hg : gen_list (fun x => gen root (snd x)) (combine (map (fun a => key_text (fst a)) items) ds) m = Some (map snd items, m)).
      { apply gen_list_same. unfold inside in Hin. cbn [mentions] in Hin. clear -Em Hin Hpl IH.
        induction Em as [|[k a] d args ds H1 H2 IHe]; cbn; constructor.
        - cbn. inv Hpl. apply (IH a d); [exact H1|apply H3|]. intros x Hx. apply Hin. cbn. apply in_or_app. auto.
        - inv Hpl. apply IHe; [assumption|]. intros x Hx. apply Hin. cbn. apply in_or_app. auto. }
      rewrite Hg. cbn [resolve]. do 3 f_equal. clear -Em Hpl.
      induction Em as [|[k a] d args ds H1 H2 IHe]; cbn; [reflexivity|]. inv Hpl. cbn in *. destruct H3 as ((s & ->) & _). f_equal. auto.
    - destruct (mapM _ items) as [ds|] eqn:Em; [|discriminate]. injection Hp as <-. rewrite mapM_spec in Em.
      apply plain_list in Hpl. cbn [gen].
      assert (Hg : gen_list (gen root) ds m = Some (map snd items, m)).
      { apply gen_list_same. unfold inside in Hin. cbn [mentions] in Hin. clear -Em Hin Hpl IH.
        induction Em as [|[k a] d args ds H1 H2 IHe]; cbn; constructor.
        - cbn. inv Hpl. apply (IH a d); [exact H1|apply H3|]. intros x Hx. apply Hin. cbn. apply in_or_app. auto.
        - inv Hpl. apply IHe; [assumption|]. intros x Hx. apply Hin. cbn. apply in_or_app. auto. }
      rewrite Hg. do 3 f_equal. clear -Em Hpl.
      induction Em as [|[k a] d args ds H1 H2 IHe]; cbn; [reflexivity|]. inv Hpl. cbn in *. destruct H3 as (-> & _). f_equal. auto.
    - injection Hp as <-. reflexivity.
  Qed.

  Lemma open_save n d : load known n m root = Some (Some d) -> save root d m = Some m.
  Proof.
    unfold load, save. destruct (lookup m root) as [e|] eqn:El; [|discriminate].
    destruct (parse known n m e) as [d0|] eqn:Ep; [|discriminate]. intros [= <-].
    assert (Hr : reached m root root) by constructor.
    destruct (T root e Hr El) as (Ho & Hpe & Hna & _).
    assert (Hg := gen_parse n e d0 Ep Hpe (reached_inside root e Hr El)).
    assert (Hb := parse_unbound _ _ _ Ep Hna).
    assert (Hd : no_assign (root_assign root d0) = d0).
    { destruct d0; cbn in *; try subst; reflexivity. }
    rewrite Hd, Hg. rewrite (set_same None m root e Ho El). reflexivity.
  Qed.
End Open.

(* ---- a configuration that is not circular can be opened ---- *)
Section Load.
  Context (known : expr -> list string) (m : module).
  Lemma mapM_mono {A B} (f g : A -> option B) l ys : (forall x y, f x = Some y -> g x = Some y) -> mapM f l = Some ys -> mapM g l = Some ys.
  Proof.
    intros H. rewrite !mapM_spec. induction 1; constructor; auto.
  Qed.
  Lemma parse_mono n : forall n' e d, (n <= n')%nat -> parse known n m e = Some d -> parse known n' m e = Some d.
  Proof.
    induction n as [|n IH]; intros n' e d Hle H; [discriminate|]. destruct n' as [|n']; [lia|].
    assert (IH' : forall e d, parse known n m e = Some d -> parse known n' m e = Some d) by (intros; apply IH; [lia|assumption]).
    destruct e as [x|f args|items|items|c]; cbn [parse] in *.
    - destruct (lookup m x); [|exact H]. destruct (parse known n m e) as [d0|] eqn:E; [|discriminate]. rewrite (IH' _ _ E). exact H.
    - destruct (mapM _ args) as [ds|] eqn:E; [|discriminate]. erewrite mapM_mono; [exact H| |exact E]. intros; apply IH'; assumption.
    - destruct (mapM _ items) as [ds|] eqn:E; [|discriminate]. erewrite mapM_mono; [exact H| |exact E]. intros; apply IH'; assumption.
    - destruct (mapM _ items) as [ds|] eqn:E; [|discriminate]. erewrite mapM_mono; [exact H| |exact E]. intros; apply IH'; assumption.
    - exact H.
  Qed.
  Lemma mapM_parse {A} (l : list (A * expr)) : Forall (fun a => exists n d, parse known n m (snd a) = Some d) l ->
    exists n ds, mapM (fun a => parse known n m (snd a)) l = Some ds.
  Proof.
    induction 1 as [|a l (n1 & d1 & H1) H2 (n2 & ds & IH)]; [exists 0%nat, []; reflexivity|].
    exists (Nat.max n1 n2), (d1 :: ds). cbn. rewrite (parse_mono n1 (Nat.max n1 n2) _ _ ltac:(lia) H1).
    erewrite mapM_mono; [reflexivity| |exact IH]. intros x y Hx. cbn in Hx. eapply parse_mono; [|exact Hx]. lia.
  Qed.
  Lemma parse_succeeds (rank : string -> nat) :
    (forall x e y, lookup m x = Some e -> In y (mentions e) -> lookup m y <> None -> (rank y < rank x)%nat) ->
    forall k e, (forall y, In y (mentions e) -> lookup m y <> None -> (rank y < k)%nat) -> exists n d, parse known n m e = Some d.
  Proof.
    intros Hr. induction k as [k IHk] using lt_wf_ind. intros e. induction e as [x|f args IH|items IH|items IH|c] using expr_ind2; intros Hm.
    - destruct (lookup m x) as [e'|] eqn:El.
      + destruct (IHk (rank x)) with (e := e') as (n & d & H).
        * apply Hm; [left; reflexivity|congruence].
        * intros y Hy Hl. eapply Hr; eauto.
        * exists (S n). cbn. rewrite El, H. eauto.
      + exists 1%nat. cbn. rewrite El. eauto.
    - destruct (mapM_parse args) as (n & ds & H).
      { cbn [mentions] in Hm. induction IH as [|a l Ha Hl IHl]; constructor.
        - apply Ha. intros y Hy. apply Hm. cbn. apply in_or_app. auto.
        - apply IHl. intros y Hy. apply Hm. cbn. apply in_or_app. auto. }
      exists (S n). cbn. rewrite H. eauto.
    - destruct (mapM_parse items) as (n & ds & H).
      { cbn [mentions] in Hm. induction IH as [|a l Ha Hl IHl]; constructor.
        - apply Ha. intros y Hy. apply Hm. cbn. apply in_or_app. auto.
        - apply IHl. intros y Hy. apply Hm. cbn. apply in_or_app. auto. }
      exists (S n). cbn. rewrite H. eauto.
    - destruct (mapM_parse items) as (n & ds & H).
      { cbn [mentions] in Hm. induction IH as [|a l Ha Hl IHl]; constructor.
        - apply Ha. intros y Hy. apply Hm. cbn. apply in_or_app. auto.
        - apply IHl. intros y Hy. apply Hm. cbn. apply in_or_app. auto. }
      exists (S n). cbn. rewrite H. eauto.
    - exists 1%nat. cbn. eauto.
  Qed.
  Lemma opens root e : acyclic m -> lookup m root = Some e -> exists n d, forall n', (n <= n')%nat -> load known n' m root = Some (Some d).
  Proof.
    intros (rank & Hr) Hl. destruct (parse_succeeds rank Hr (rank root) e) as (n & d & H); [intros; eapply Hr; eauto|].
    exists n, (root_assign root d). intros n' Hn. unfold load. rewrite Hl, (parse_mono n n' _ _ Hn H). reflexivity.
  Qed.
End Load.

(* ---- what is saved ---- *)
Definition puts (root : string) (l : list (string * data)) (m : module) : module :=
  fold_left (fun m p => set_assignment (Some root) (fst p) (body (snd p)) m) l m.
Lemma puts_app root l1 l2 m : puts root (l1 ++ l2) m = puts root l2 (puts root l1 m).
Proof. apply fold_left_app. Qed.

Lemma parts_inner d : parts d = inner d ++ match bound d with Some x => [(x, d)] | None => [] end.
Proof. destruct d; reflexivity. Qed.
Lemma body_call f args a : body (DCall f args a) = ECall f (map (fun x => (false, fst x, ref (snd x))) args).
Proof. cbn. f_equal. apply map_ext. intros [k d]. destruct d as [| |? ? [|]|? [|]|? [|]]; reflexivity. Qed.
Lemma body_dict items a : body (DDict items a) = EDict (map (fun x => (KText (fst x), ref (snd x))) items).
Proof. cbn. f_equal. apply map_ext. intros [k d]. destruct d as [| |? ? [|]|? [|]|? [|]]; reflexivity. Qed.
Lemma body_list l : body (DList l) = EList (map (fun x => (false, ref x)) l).
Proof. cbn. f_equal. apply map_ext. intros d. destruct d as [| |? ? [|]|? [|]|? [|]]; reflexivity. Qed.
Lemma body_val v a : body (DVal v a) = ref v.
Proof. cbn. destruct v as [| |? ? [|]|? [|]|? [|]]; reflexivity. Qed.

Definition nonempty (l : list (string * data)) : Prop := forall x v a, In (x, DVal v a) l -> v <> DList [].
Lemma nonempty_app l1 l2 : nonempty (l1 ++ l2) <-> nonempty l1 /\ nonempty l2.
Proof.
  unfold nonempty. split.
  - intros H. split; intros x v a Hin; apply (H x v a); apply in_or_app; auto.
  - intros (H1 & H2) x v a Hin. apply in_app_or in Hin. destruct Hin; eauto.
Qed.

Lemma gen_list_spec {A} root (f : A -> data) l :
  Forall (fun x => forall m, (nonempty (parts (f x)) -> gen root (f x) m = Some (ref (f x), puts root (parts (f x)) m)) /\
                             (gen root (f x) m <> None -> nonempty (parts (f x)))) l ->
  forall m, (nonempty (flat_map (fun x => parts (f x)) l) ->
             gen_list (fun x => gen root (f x)) l m = Some (map (fun x => ref (f x)) l, puts root (flat_map (fun x => parts (f x)) l) m)) /\
            (gen_list (fun x => gen root (f x)) l m <> None -> nonempty (flat_map (fun x => parts (f x)) l)).
Proof.
  induction 1 as [|x l Hx Hl IH]; intros m; cbn [flat_map gen_list map].
  - split; [intros _; reflexivity|]. intros _ y v a [].
  - destruct (Hx m) as (Ha & Hb). split.
    + rewrite nonempty_app. intros (H1 & H2). rewrite (Ha H1). fold (gen_list (fun x => gen root (f x))).
      destruct (IH (puts root (parts (f x)) m)) as (Hc & _). rewrite (Hc H2), puts_app. reflexivity.
    + fold (gen_list (fun x => gen root (f x))). destruct (gen root (f x) m) as [[e m1]|] eqn:E; [|congruence].
      intros H. apply nonempty_app. split; [apply Hb; discriminate|]. apply (IH m1). destruct (gen_list _ l m1); [discriminate|congruence].
Qed.

Lemma combine_map {A B C} (f : A -> B) (g : A -> C) l : combine (map f l) (map g l) = map (fun x => (f x, g x)) l.
Proof. induction l as [|x l IH]; cbn; [reflexivity|]. rewrite IH. reflexivity. Qed.

Lemma gen_spec root d : forall m, (nonempty (parts d) -> gen root d m = Some (ref d, puts root (parts d) m)) /\
                                  (gen root d m <> None -> nonempty (parts d)).
Proof.
  induction d as [e|l IH|f args a IH|items a IH|v a IH] using data_ind2; intros m.
  - cbn. split; [reflexivity|]. intros _ x v b [].
  - assert (H := gen_list_spec root (fun x => x) l IH m). cbn beta in H. rewrite parts_inner. cbn [inner bound]. rewrite app_nil_r.
    change (flat_map (fun x => parts x) l) with (flat_map parts l) in H. cbn [gen].
    change (gen_list (fun x => gen root x) l m) with (gen_list (gen root) l m) in H. destruct H as (H1 & H2). split.
    + intros Hn. rewrite (H1 Hn). change (ref (DList l)) with (body (DList l)). rewrite body_list, map_map. reflexivity.
    + intros Hg. apply H2. destruct (gen_list (gen root) l m); [discriminate|congruence].
  - assert (H := gen_list_spec root snd args IH m). rewrite parts_inner. cbn [inner]. cbn [gen]. destruct H as (H1 & H2). split.
    + rewrite nonempty_app. intros (Hn & _). rewrite (H1 Hn), combine_map, puts_app, <- body_call with (a := a).
      destruct a as [x|]; reflexivity.
    + intros Hg. apply nonempty_app. split.
      * apply H2. destruct (gen_list _ args m); [discriminate|congruence].
      * intros x v b Hin. cbn [bound] in Hin. destruct a; [|destruct Hin]. destruct Hin as [Hin|[]]. discriminate.
  - assert (H := gen_list_spec root snd items IH m). rewrite parts_inner. cbn [inner]. cbn [gen]. destruct H as (H1 & H2). split.
    + rewrite nonempty_app. intros (Hn & _). rewrite (H1 Hn), combine_map, puts_app, <- body_dict with (a := a).
      destruct a as [x|]; reflexivity.
    + intros Hg. apply nonempty_app. split.
      * apply H2. destruct (gen_list _ items m); [discriminate|congruence].
      * intros x v b Hin. cbn [bound] in Hin. destruct a; [|destruct Hin]. destruct Hin as [Hin|[]]. discriminate.
  - rewrite parts_inner. cbn [inner bound]. destruct (IH m) as (H1 & H2). destruct a as [x|]; cbn [gen].
    + split.
      * rewrite nonempty_app. intros (Hn & Hv). assert (Hne : v <> DList []) by (eapply Hv; left; reflexivity).
        assert (Ht : truthy v = true) by (destruct v as [|[|]| | |]; auto; congruence). rewrite Ht, (H1 Hn), puts_app, <- (body_val v (Some x)). reflexivity.
      * destruct (truthy v) eqn:Ht; [|congruence]. intros Hg. apply nonempty_app. split.
        -- apply H2. destruct (gen root v m); [discriminate|congruence].
        -- intros y w b Hin. destruct Hin as [Hin|[]]. injection Hin as <- <- <-. intros ->. discriminate.
    + rewrite app_nil_r. split; [|exact H2]. intros Hn. rewrite (H1 Hn), <- (body_val v None). reflexivity.
Qed.

Lemma no_assign_parts d : parts (no_assign d) = inner d.
Proof. rewrite parts_inner. destruct d; cbn [no_assign inner bound]; apply app_nil_r. Qed.
Lemma no_assign_ref d : ref (no_assign d) = body d.
Proof. destruct d; reflexivity. Qed.
Lemma save_spec root d m : no_empty d -> save root d m = Some (set_assignment None root (body d) (puts root (inner d) m)).
Proof.
  intros H. unfold save. destruct (gen_spec root (no_assign d) m) as (H1 & _). rewrite no_assign_parts in H1. rewrite (H1 H), no_assign_ref. reflexivity.
Qed.
Lemma save_some root d m m' : save root d m = Some m' -> no_empty d.
Proof.
  unfold save. intros H. destruct (gen_spec root (no_assign d) m) as (_ & H2). rewrite no_assign_parts in H2. apply H2.
  destruct (gen root (no_assign d) m); [discriminate|discriminate].
Qed.
Lemma saves root d m : no_empty d <-> exists m', save root d m = Some m'.
Proof. split; [intros H; rewrite (save_spec _ _ _ H); eauto|intros (m' & H); eapply save_some; eauto]. Qed.

(* nothing else changes *)
Lemma ks_refl names s : kept_small names s s. Proof. constructor. Qed.
Lemma ks_list_refl names l : Forall2 (kept_small names) l l.
Proof. induction l; constructor; auto using ks_refl. Qed.
Lemma kept_refl names m : kept names m m.
Proof. induction m as [|[a r|c] m IH]; constructor; auto using ks_refl, ks_list_refl. Qed.
Lemma ks_trans names a b c : kept_small names a b -> kept_small names b c -> kept_small names a c.
Proof.
  intros H1 H2. inv H1; [exact H2|]. inv H2; [eapply ks_value; eauto|]. eapply ks_value; eauto.
Qed.
Lemma ks_list_trans names a b c : Forall2 (kept_small names) a b -> Forall2 (kept_small names) b c -> Forall2 (kept_small names) a c.
Proof. intros H. revert c. induction H; intros z Hz; inv Hz; constructor; eauto using ks_trans. Qed.
Lemma kept_trans names m2 : forall m1 m3, kept names m1 m2 -> kept names m2 m3 -> kept names m1 m3.
Proof.
  intros m1 m3 H1 H2. revert m1 H1. induction H2 as [|c m m' H IH|a r a' r' m m' Ha Hr H IH|x e m m' Hx H IH]; intros m1 H1.
  - exact H1.
  - inv H1. constructor. auto.
  - inv H1.
    + constructor; eauto using ks_trans, ks_list_trans.
    + inv Hr. assert (Hs : exists e', a' = MAssign [TName x] e') by (inv Ha; eauto). destruct Hs as (e' & ->). apply kept_new; auto.
  - apply kept_new; auto.
Qed.
Lemma kept_mono names names' m m' : (forall x, In x names -> In x names') -> kept names m m' -> kept names' m m'.
Proof.
  intros Hs. assert (Hk : forall a b, kept_small names a b -> kept_small names' a b).
  { intros a b H. inv H; [constructor|eapply ks_value; eauto]. }
  induction 1; constructor; auto. match goal with H : Forall2 _ _ _ |- _ => clear -H Hk; induction H; constructor; auto end.
Qed.
Lemma kept_replace x e m : kept [x] m (map (replace_stmt x e) m).
Proof.
  assert (Hk : forall s, kept_small [x] s (replace_small x e s)).
  { intros [ts v|c]; cbn; [|constructor]. destruct (existsb (is_target x) ts) eqn:E; [|constructor].
    apply is_target_in in E. eapply ks_value; [left; reflexivity|exact E]. }
  induction m as [|[a r|c] m IH]; cbn; constructor; auto. clear IH. induction r; cbn; constructor; auto.
Qed.
Lemma kept_before b x e m : kept [x] m (add_before b x e m).
Proof.
  induction m as [|[a r|c] m IH]; cbn; [constructor| |constructor; exact IH].
  destruct (assigns_small b a); cbn.
  - apply kept_new; [left; reflexivity|]. constructor; auto using ks_refl, ks_list_refl.
  - constructor; auto using ks_refl, ks_list_refl.
Qed.
Lemma kept_snoc x e m : kept [x] m (m ++ [line x e]).
Proof.
  induction m as [|[a r|c] m IH]; cbn; [apply kept_new; [left; reflexivity|constructor]| |];
    constructor; auto using ks_refl, ks_list_refl.
Qed.
Lemma kept_set b x e m : kept [x] m (set_assignment b x e m).
Proof.
  unfold set_assignment. destruct (existsb _ m); [apply kept_replace|]. destruct b; [apply kept_before|].
  unfold add_last. destruct (forallb is_line m); [apply kept_snoc|apply kept_refl].
Qed.
Lemma kept_puts root names l : (forall p, In p l -> In (fst p) names) -> forall m, kept names m (puts root l m).
Proof.
  induction l as [|p l IH]; intros H m; [apply kept_refl|]. cbn. eapply kept_trans; [|apply IH; intros; apply H; right; assumption].
  eapply kept_mono; [|apply kept_set]. intros x [<-|[]]. apply H. left. reflexivity.
Qed.
Lemma frame root d m m' : save root d m = Some m' -> kept (root :: map fst (inner d)) m m'.
Proof.
  intros H. assert (Hn := save_some _ _ _ _ H). rewrite (save_spec _ _ _ Hn) in H. injection H as <-.
  eapply kept_trans; [apply kept_puts with (names := root :: map fst (inner d))|].
  - intros p Hp. right. apply in_map. exact Hp.
  - eapply kept_mono; [|apply kept_set]. intros x [<-|[]]. left. reflexivity.
Qed.

(* ---- the saved values ---- *)
Lemma simple_cons s m : simple (s :: m) <-> simple [s] /\ simple m.
Proof.
  unfold simple. split.
  - intros H. split; intros a r Hin; apply H; [destruct Hin as [->|[]]; left; reflexivity|right; exact Hin].
  - intros (H1 & H2) a r [->|Hin]; [apply H1; left; reflexivity|apply H2; exact Hin].
Qed.
Lemma simple_line x e : simple [line x e].
Proof. intros a r [[= <- <-]|[]]. split; [reflexivity|]. intros ts v [= <- <-]. eauto. Qed.
Lemma simple_app m1 m2 : simple (m1 ++ m2) <-> simple m1 /\ simple m2.
Proof.
  unfold simple. split.
  - intros H. split; intros a r Hin; apply H; apply in_or_app; auto.
  - intros (H1 & H2) a r Hin. apply in_app_or in Hin. destruct Hin; auto.
Qed.
Lemma smalls_app m1 m2 : smalls (m1 ++ m2) = smalls m1 ++ smalls m2.
Proof. apply flat_map_app. Qed.
Lemma assigned_app m1 m2 x : assigned (m1 ++ m2) x <-> assigned m1 x \/ assigned m2 x.
Proof.
  unfold assigned. rewrite smalls_app. split.
  - intros (s & Hin & Ha). apply in_app_or in Hin. destruct Hin; [left|right]; eauto.
  - intros [(s & Hin & Ha)|(s & Hin & Ha)]; exists s; split; auto; apply in_or_app; auto.
Qed.
Lemma assigned_cons s m x : assigned (s :: m) x <-> assigned [s] x \/ assigned m x.
Proof. apply (assigned_app [s] m x). Qed.
Lemma assigned_line y e x : assigned [line y e] x <-> x = y.
Proof.
  unfold assigned, smalls, assigns. cbn. split.
  - intros (s & [<-|[]] & ts & v & [= <- <-] & [[= ->]|[]]). reflexivity.
  - intros ->. eexists. split; [left; reflexivity|]. eexists _, _. split; [reflexivity|left; reflexivity].
Qed.
Lemma lookup_assigned m x : lookup m x <> None -> assigned m x.
Proof.
  destruct (lookup m x) as [e|] eqn:E; [|congruence]. intros _. destruct (lookup_found _ _ _ E) as (ts & H1 & H2).
  exists (MAssign ts e). split; [exact H1|]. unfold assigns. eauto.
Qed.
Lemma assigned_lookup m x : simple m -> assigned m x -> lookup m x <> None.
Proof.
  induction m as [|s m IH]; [intros _ (s & [] & _)|]. rewrite simple_cons, assigned_cons. intros (Hs & Hm) Ha.
  destruct s as [a r|c]; cbn.
  - destruct (Hs a r (or_introl eq_refl)) as (-> & Ht). destruct a as [ts e|c].
    + destruct (existsb (is_target x) ts) eqn:E; [discriminate|]. apply IH; [exact Hm|]. destruct Ha as [Ha|Ha]; [|exact Ha].
      destruct Ha as (s & [<-|[]] & ts' & v & [= <- <-] & Hin). apply is_target_in in Hin. congruence.
    + apply IH; [exact Hm|]. destruct Ha as [(s & [<-|[]] & ts' & v & [=] & Hin)|Ha]. exact Ha.
  - apply IH; [exact Hm|]. destruct Ha as [(s & [] & _)|Ha]. exact Ha.
Qed.

Lemma simple_replace x e m : simple m -> simple (map (replace_stmt x e) m).
Proof.
  induction m as [|s m IH]; intros H; [exact H|]. cbn [map]. apply simple_cons in H. destruct H as (Hs & Hm). apply simple_cons. split; [|auto].
  intros a r [Hin|[]]. destruct s as [a0 r0|c]; cbn in Hin; [|discriminate]. injection Hin as <- <-.
  destruct (Hs a0 r0 (or_introl eq_refl)) as (-> & Ht). split; [reflexivity|]. intros ts v Hr. destruct a0 as [ts0 v0|c]; [|discriminate].
  cbn in Hr. destruct (existsb (is_target x) ts0); injection Hr as <- <-; eapply Ht; reflexivity.
Qed.
Lemma simple_before b x e m : simple m -> simple (add_before b x e m).
Proof.
  induction m as [|s m IH]; intros H; [exact H|]. apply simple_cons in H. destruct H as (Hs & Hm). cbn. apply simple_app. split; [|auto].
  destruct s as [a r|c]; [|exact Hs]. destruct (assigns_small b a); [|exact Hs]. apply simple_cons. split; [apply simple_line|exact Hs].
Qed.
Lemma simple_set b x e m : simple m -> simple (set_assignment b x e m).
Proof.
  intros H. unfold set_assignment. destruct (existsb _ m); [apply simple_replace; exact H|]. destruct b; [apply simple_before; exact H|].
  unfold add_last. destruct (forallb is_line m); [|exact H]. apply simple_app. split; [exact H|apply simple_line].
Qed.

Lemma lookup_replace_same x e m : lookup m x <> None -> lookup (map (replace_stmt x e) m) x = Some e.
Proof.
  induction m as [|[[ts v|c] r|c] m IH]; cbn; [congruence| |auto|auto].
  destruct (existsb (is_target x) ts) eqn:E; cbn; rewrite E; auto.
Qed.
Lemma lookup_replace_other x e y m : simple m -> y <> x -> lookup (map (replace_stmt x e) m) y = lookup m y.
Proof.
  intros Hs Hy. induction m as [|s m IH]; [reflexivity|]. apply simple_cons in Hs. destruct Hs as (Hs & Hm). specialize (IH Hm).
  destruct s as [[ts v|c] r|c]; cbn; auto.
  destruct (Hs _ _ (or_introl eq_refl)) as (_ & Ht). destruct (Ht ts v eq_refl) as (t & ->). cbn.
  destruct (is_target x t) eqn:Ex; cbn; [|rewrite IH; reflexivity].
  assert (Ey : is_target y t = false).
  { destruct t as [z|c]; cbn in *; [|reflexivity]. apply String.eqb_eq in Ex. subst z. apply String.eqb_neq. congruence. }
  rewrite Ey, IH. reflexivity.
Qed.
Lemma add_before_cons b x e s m : add_before b x e (s :: m) =
  (match s with SLine a _ => if assigns_small b a then [line x e; s] else [s] | SBlock _ => [s] end) ++ add_before b x e m.
Proof. reflexivity. Qed.
Lemma add_before_app b x e m1 m2 : add_before b x e (m1 ++ m2) = add_before b x e m1 ++ add_before b x e m2.
Proof. apply flat_map_app. Qed.
Lemma lookup_before_same b x e m : lookup m b <> None -> lookup m x = None -> lookup (add_before b x e m) x = Some e.
Proof.
  induction m as [|[[ts v|c] r|c] m IH]; cbn; [congruence| |auto|auto].
  intros Hb Hx. destruct (existsb (is_target b) ts) eqn:Eb; cbn.
  - rewrite String.eqb_refl. reflexivity.
  - destruct (existsb (is_target x) ts); [discriminate|]. auto.
Qed.
Lemma lookup_before_other b x e y m : y <> x -> lookup (add_before b x e m) y = lookup m y.
Proof.
  intros Hy. assert (Hs : String.eqb x y = false) by (apply String.eqb_neq; congruence).
  unfold add_before. induction m as [|[[ts v|c] r|c] m IH]; cbn; auto.
  destruct (existsb (is_target b) ts) eqn:Eb; cbn; rewrite ?Hs; cbn; rewrite IH; reflexivity.
Qed.

Lemma lookup_set_same root x e m : simple m -> lookup m root <> None -> lookup (set_assignment (Some root) x e m) x = Some e.
Proof.
  intros Hs Hr. unfold set_assignment. destruct (existsb (assigns_stmt x) m) eqn:E.
  - apply lookup_replace_same. apply assigned_lookup; [exact Hs|]. apply assigned_iff. exact E.
  - apply lookup_before_same; [exact Hr|]. destruct (lookup m x) as [e0|] eqn:El; [|reflexivity].
    assert (Ha : assigned m x) by (apply lookup_assigned; congruence). apply assigned_iff in Ha. congruence.
Qed.
Lemma lookup_set_other root x e y m : simple m -> y <> x -> lookup (set_assignment (Some root) x e m) y = lookup m y.
Proof.
  intros Hs Hy. unfold set_assignment. destruct (existsb (assigns_stmt x) m).
  - apply lookup_replace_other; auto.
  - apply lookup_before_other; auto.
Qed.
Lemma puts_cons root p l m : puts root (p :: l) m = puts root l (set_assignment (Some root) (fst p) (body (snd p)) m).
Proof. reflexivity. Qed.
Lemma puts_nil root m : puts root [] m = m. Proof. reflexivity. Qed.
Lemma puts_simple root l : forall m, simple m -> simple (puts root l m).
Proof. induction l as [|p l IH]; intros m H; [exact H|]. cbn. apply IH, simple_set, H. Qed.
Lemma puts_root root l : (forall a, ~ In (root, a) l) -> forall m, simple m -> lookup (puts root l m) root = lookup m root.
Proof.
  induction l as [|[x a] l IH]; intros H m Hs; [reflexivity|]. rewrite puts_cons, IH; [|intros b Hb; apply (H b); right; exact Hb|apply simple_set, Hs].
  apply lookup_set_other; [exact Hs|]. intros ->. apply (H a). left. reflexivity.
Qed.
Lemma puts_lookup root m : simple m -> lookup m root <> None -> forall l,
  (forall a, ~ In (root, a) l) -> (forall x a b, In (x, a) l -> In (x, b) l -> body a = body b) ->
  forall x a, In (x, a) l -> lookup (puts root l m) x = Some (body a).
Proof.
  intros Hs Hr. induction l as [|l [y b] IH] using rev_ind_snoc; intros Hn Hc x a Hin; [destruct Hin|].
  assert (Hn' : forall a, ~ In (root, a) l) by (intros c Hc'; apply (Hn c); apply in_or_app; auto).
  rewrite puts_app, puts_cons, puts_nil. cbn [fst snd].
  assert (Hroot : lookup (puts root l m) root <> None) by (rewrite puts_root; auto).
  destruct (string_dec x y) as [->|Hxy].
  - rewrite lookup_set_same; [|apply puts_simple; exact Hs|exact Hroot]. f_equal. apply (Hc y); [apply in_or_app; right; left; reflexivity|exact Hin].
  - rewrite lookup_set_other; [|apply puts_simple; exact Hs|exact Hxy]. apply in_app_or in Hin. destruct Hin as [Hin|[Hin|[]]]; [|congruence].
    apply IH; auto. intros z c d H1 H2. apply (Hc z); apply in_or_app; auto.
Qed.

Lemma saved root d m m' : simple m -> lookup m root <> None -> consistent root d -> save root d m = Some m' ->
  lookup m' root = Some (body d) /\ (forall x a, In (x, a) (inner d) -> lookup m' x = Some (body a)) /\
  (forall y, y <> root -> (forall a, ~ In (y, a) (inner d)) -> lookup m' y = lookup m y).
Proof.
  intros Hs Hr (Hc & Hn) H. assert (Hne := save_some _ _ _ _ H). rewrite (save_spec _ _ _ Hne) in H. injection H as <-.
  set (m1 := puts root (inner d) m). assert (H1 : lookup m1 root <> None) by (unfold m1; rewrite puts_root; auto).
  assert (Hs1 : simple m1) by (apply puts_simple; exact Hs).
  assert (Ha : existsb (assigns_stmt root) m1 = true) by (apply assigned_iff, lookup_assigned, H1).
  unfold set_assignment. rewrite Ha. split; [apply lookup_replace_same; exact H1|]. split.
  - intros x a Hin. rewrite lookup_replace_other; [|exact Hs1|intros ->; eapply Hn; eauto]. apply puts_lookup; auto.
  - intros y Hy Hny. rewrite lookup_replace_other by auto. unfold m1. clear -Hs Hny. revert m Hs. induction (inner d) as [|[x a] l IH]; intros m Hs; [reflexivity|].
    rewrite puts_cons, IH; [|intros b Hb; apply (Hny b); right; exact Hb|apply simple_set, Hs]. apply lookup_set_other; [exact Hs|]. intros ->. apply (Hny a). left. reflexivity.
Qed.

(* new variables: defined before they are used *)
Lemma add_before_fresh root x e old pre post : ~ assigned pre root -> ~ assigned post root ->
  add_before root x e (pre ++ line root old :: post) = pre ++ line x e :: line root old :: post.
Proof.
  intros H1 H2. assert (Hid : forall m, ~ assigned m root -> add_before root x e m = m).
  { induction m as [|s m IH]; intros H; [reflexivity|]. rewrite assigned_cons in H. rewrite add_before_cons, IH by tauto. destruct s as [a r|c]; [|reflexivity].
    destruct (assigns_small root a) eqn:E; [|reflexivity]. exfalso. apply H. left. exists a. split; [left; reflexivity|apply assigns_small_iff; exact E]. }
  rewrite add_before_app, add_before_cons, (Hid pre H1), (Hid post H2). cbn. rewrite String.eqb_refl. reflexivity.
Qed.
Lemma puts_fresh root old post : ~ assigned post root -> forall l pre, ~ assigned pre root ->
  NoDup (map fst l) -> (forall x, In x (map fst l) -> x <> root /\ ~ assigned pre x /\ ~ assigned post x) ->
  puts root l (pre ++ line root old :: post) = pre ++ map (fun p => line (fst p) (body (snd p))) l ++ line root old :: post.
Proof.
  intros Hpost. induction l as [|[x a] l IH]; intros pre Hpre Hnd Hf; [reflexivity|]. cbn [map fst snd] in *. inv Hnd.
  destruct (Hf x (or_introl eq_refl)) as (Hxr & Hxp & Hxq). rewrite puts_cons. cbn [fst snd].
  assert (E : existsb (assigns_stmt x) (pre ++ line root old :: post) = false).
  { apply not_true_iff_false. rewrite assigned_iff, assigned_app, assigned_cons, assigned_line. tauto. }
  unfold set_assignment. rewrite E, add_before_fresh by auto.
  replace (pre ++ line x (body a) :: line root old :: post) with ((pre ++ [line x (body a)]) ++ line root old :: post) by (rewrite <- app_assoc; reflexivity).
  rewrite IH.
  - rewrite <- app_assoc. reflexivity.
  - rewrite assigned_app, assigned_line. intuition congruence.
  - assumption.
  - intros y Hy. destruct (Hf y (or_intror Hy)) as (H3 & H4 & H5). split; [exact H3|]. split; [|exact H5].
    rewrite assigned_app, assigned_line. intros [Hc | -> ]; auto.
Qed.
Lemma replace_unassigned x e m : ~ assigned m x -> map (replace_stmt x e) m = m.
Proof.
  intros H. apply map_same. intros s Hs. destruct s as [a r|c]; [|reflexivity].
  assert (Hn : forall s, In s (a :: r) -> replace_small x e s = s).
  { intros s Hin. apply replace_small_same. intros ts v -> Ht. exfalso. apply H. exists (MAssign ts v). split.
    - apply in_flat_map. exists (SLine a r). auto.
    - unfold assigns. eauto. }
  cbn. rewrite (Hn a (or_introl eq_refl)). f_equal. apply map_same. intros s Hin. apply Hn. right. exact Hin.
Qed.
Lemma saved_new root d old pre post : no_empty d -> ~ assigned (pre ++ post) root -> NoDup (map fst (inner d)) ->
  (forall x, In x (map fst (inner d)) -> x <> root /\ ~ assigned (pre ++ post) x) ->
  save root d (pre ++ line root old :: post) =
  Some (pre ++ map (fun p => line (fst p) (body (snd p))) (inner d) ++ line root (body d) :: post).
Proof.
  intros Hne Hr Hnd Hf. rewrite (save_spec _ _ _ Hne). rewrite assigned_app in Hr.
  rewrite puts_fresh; [|tauto|tauto|exact Hnd|intros x Hx; destruct (Hf x Hx) as (H1 & H2); rewrite assigned_app in H2; tauto].
  unfold set_assignment.
  assert (E : existsb (assigns_stmt root) (pre ++ map (fun p => line (fst p) (body (snd p))) (inner d) ++ line root old :: post) = true).
  { apply assigned_iff. rewrite !assigned_app, assigned_cons, assigned_line. tauto. }
  rewrite E. do 2 f_equal. rewrite !map_app. cbn [map replace_stmt line replace_small]. cbn. rewrite String.eqb_refl. cbn.
  rewrite (replace_unassigned root (body d) pre), (replace_unassigned root (body d) post) by tauto. f_equal. f_equal.
  apply replace_unassigned. clear -Hf. induction (inner d) as [|[x a] l IH]; cbn [map fst snd] in *; [intros (s & [] & _)|].
  rewrite assigned_cons, assigned_line. intros [H|H].
  - destruct (Hf x (or_introl eq_refl)) as (H1 & _). congruence.
  - apply IH; [|exact H]. intros y Hy. apply Hf. right. exact Hy.
Qed.

Lemma flat_map_split {A B} (f : A -> list B) l : forall l1 z l2, flat_map f l = l1 ++ z :: l2 ->
  exists la c k1 k2, In c l /\ f c = k1 ++ z :: k2 /\ l1 = la ++ k1.
Proof.
  induction l as [|x l IH]; intros l1 z l2 H; cbn in H; [destruct l1; discriminate|].
  destruct (Nat.lt_ge_cases (List.length l1) (List.length (f x))) as [Hlt|Hge].
  - exists [], x, l1. assert (Hf : f x = l1 ++ z :: firstn (List.length (f x) - List.length l1 - 1) l2).
    { assert (E := f_equal (firstn (List.length (f x))) H). rewrite firstn_app, Nat.sub_diag, firstn_all, firstn_O, app_nil_r in E.
      rewrite firstn_app, (firstn_all2 l1) in E by lia. destruct (List.length (f x) - List.length l1)%nat as [|k] eqn:Ek; [lia|]. cbn [firstn] in E.
      rewrite E. do 3 f_equal. lia. }
    eexists. split; [left; reflexivity|]. split; [exact Hf|reflexivity].
  - assert (Hr : flat_map f l = skipn (List.length (f x)) l1 ++ z :: l2).
    { assert (E := f_equal (skipn (List.length (f x))) H). rewrite skipn_app, Nat.sub_diag, skipn_all, skipn_O in E. cbn [app] in E.
      rewrite E, skipn_app. replace (List.length (f x) - List.length l1)%nat with 0%nat by lia. reflexivity. }
    destruct (IH _ _ _ Hr) as (la & c & k1 & k2 & Hc & Hk & Hl). exists (f x ++ la), c, k1, k2. split; [right; exact Hc|]. split; [exact Hk|].
    rewrite <- app_assoc, <- Hl. assert (E := f_equal (firstn (List.length (f x))) H).
    rewrite firstn_app, Nat.sub_diag, firstn_all, firstn_O, app_nil_r in E. rewrite firstn_app in E.
    replace (List.length (f x) - List.length l1)%nat with 0%nat in E by lia. rewrite firstn_O, app_nil_r in E. rewrite E at 1. symmetry. apply firstn_skipn.
Qed.
Lemma parts_order d : forall l1 x t l2, parts d = l1 ++ (x, t) :: l2 -> forall p, In p (inner t) -> In p l1.
Proof.
  assert (Hgen : forall d l, (forall l1 x t l2, l = l1 ++ (x, t) :: l2 -> forall p, In p (inner t) -> In p l1) -> inner d = l ->
    forall l1 x t l2, parts d = l1 ++ (x, t) :: l2 -> forall p, In p (inner t) -> In p l1).
  { intros d0 l Hl Hi l1 x t l2 H p Hp. rewrite parts_inner, Hi in H. destruct (bound d0) as [y|].
    - destruct l2 as [|z l2] using rev_ind_snoc.
      + apply app_inj_tail in H. destruct H as (<- & [= <- <-]). rewrite <- Hi. exact Hp.
      + rewrite app_comm_cons, app_assoc in H. apply app_inj_tail in H. destruct H as (H & _). eapply Hl; eauto.
    - rewrite app_nil_r in H. eapply Hl; eauto. }
  assert (Hfm : forall {A} (f : A -> data) l, Forall (fun a => forall l1 x t l2, parts (f a) = l1 ++ (x, t) :: l2 -> forall p, In p (inner t) -> In p l1) l ->
    forall l1 x t l2, flat_map (fun a => parts (f a)) l = l1 ++ (x, t) :: l2 -> forall p, In p (inner t) -> In p l1).
  { intros A f l HF l1 x t l2 H p Hp. destruct (flat_map_split _ _ _ _ _ H) as (la & c & k1 & k2 & Hc & Hk & ->).
    apply in_or_app. right. rewrite Forall_forall in HF. eapply HF; eauto. }
  induction d as [e|l IH|f args a IH|items a IH|v a IH] using data_ind2.
  - cbn. intros [|? ?]; discriminate.
  - eapply Hgen; [|reflexivity]. cbn [inner]. exact (Hfm _ (fun x => x) l IH).
  - eapply Hgen; [|reflexivity]. cbn [inner]. exact (Hfm _ snd args IH).
  - eapply Hgen; [|reflexivity]. cbn [inner]. exact (Hfm _ snd items IH).
  - eapply Hgen; [|reflexivity]. exact IH.
Qed.
Lemma inner_order d l1 x t l2 : inner d = l1 ++ (x, t) :: l2 -> forall p, In p (inner t) -> In p l1.
Proof. intros H. rewrite <- no_assign_parts in H. eapply parts_order; eauto. Qed.

Lemma once_count m x : (List.length (filter (assigns_small x) (smalls m)) <= 1)%nat -> once m x.
Proof.
  intros H l1 l2 s Hs Ha s' Hin Ha'. apply assigns_small_iff in Ha. apply assigns_small_iff in Ha'. rewrite Hs, filter_app in H.
  cbn [filter] in H. rewrite Ha, app_length in H. cbn [List.length] in H.
  apply in_app_or in Hin. destruct Hin as [Hin|Hin]; assert (Hf := proj2 (filter_In (assigns_small x) _ _) (conj Hin Ha'));
    [destruct (filter (assigns_small x) l1)|destruct (filter (assigns_small x) l2)]; cbn in *; try contradiction; lia.
Qed.

(* ---- opening and saving with positional arguments ---- *)
Section Named.
  Context (known : expr -> list string) (m : module).

  Inductive from : expr -> string -> Prop :=
  | from_here e y : In y (mentions e) -> from e y
  | from_next e x e' y : In x (mentions e) -> lookup m x = Some e' -> from e' y -> from e y.
  Lemma from_sub e e' y : (forall x, In x (mentions e') -> In x (mentions e)) -> from e' y -> from e y.
  Proof. intros H F. inv F; [apply from_here; auto|eapply from_next; eauto]. Qed.

  Definition num (f : expr) : nat -> list (bool * option string * expr) -> list (bool * option string * expr) :=
    fix go i l := match l with
                  | [] => []
                  | (star, kw, a) :: l' => (star, match kw with Some k => Some k | None => nth_error (known f) i end, named known a) :: go (S i) l'
                  end.
  Lemma named_call f args : named known (ECall f args) = ECall f (num f 0 args). Proof. reflexivity. Qed.
  Lemma arg_names_kw ks : (forall a : bool * option string * expr, In a ks -> snd (fst a) <> None) -> forall l, arg_names l ks = map (fun a => snd (fst a)) ks.
  Proof.
    induction ks as [|[[s kw] a] ks IH]; intros H l; [reflexivity|]. destruct kw as [kw|]; [|exfalso; apply (H _ (or_introl eq_refl)); reflexivity].
    cbn. f_equal. apply IH. intros x Hx. apply H. right. exact Hx.
  Qed.
  Lemma num_names f ps : (forall a : bool * option string * expr, In a ps -> snd (fst a) = None) -> forall ks, (forall a : bool * option string * expr, In a ks -> snd (fst a) <> None) ->
    forall l i, (forall j, nth_error l j = nth_error (known f) (i + j)) -> arg_names l (ps ++ ks) = map (fun a => snd (fst a)) (num f i (ps ++ ks)).
  Proof.
    induction ps as [|[[s kw] a] ps IH]; intros Hp ks Hk l i Hl.
    - cbn [app]. rewrite arg_names_kw by exact Hk. clear l Hl. revert i. induction ks as [|[[s [kw|]] a] ks IH]; intros i; [reflexivity| |exfalso; apply (Hk _ (or_introl eq_refl)); reflexivity].
      cbn. f_equal. apply IH. intros x Hx. apply Hk. right. exact Hx.
    - assert (E := Hp _ (or_introl eq_refl)). cbn in E. subst kw. cbn. f_equal.
      + rewrite <- (Nat.add_0_r i), <- Hl. destruct l; reflexivity.
      + apply IH; [intros x Hx; apply Hp; right; exact Hx|exact Hk|]. intros j. replace (S i + j)%nat with (i + S j)%nat by lia. rewrite <- Hl. destruct l; [destruct j; reflexivity|reflexivity].
  Qed.
  Lemma regular_call f args : regular (ECall f args) -> arg_names (known f) args = map (fun a => snd (fst a)) (num f 0 args) /\ Forall (fun a => fst (fst a) = false /\ regular (snd a)) args.
  Proof.
    cbn [regular]. intros ((ps & ks & -> & Hp & Hk) & H). split; [apply num_names; auto|].
    revert H. induction (ps ++ ks) as [|[[s kw] a] l IH]; intros H; constructor.
    - cbn. tauto.
    - apply IH. apply H.
  Qed.
  Lemma regular_dict items : regular (EDict items) -> Forall (fun a => (exists s, fst a = KText s) /\ regular (snd a)) items.
  Proof. cbn [regular]. induction items as [|[k a] args IH]; intros H; constructor; [cbn; tauto|apply IH; apply H]. Qed.
  Lemma regular_list items : regular (EList items) -> Forall (fun a => fst a = false /\ regular (snd a)) items.
  Proof. cbn [regular]. induction items as [|[k a] args IH]; intros H; constructor; [cbn; tauto|apply IH; apply H]. Qed.

  Context (root : string) (T : regular_file m root).
  Definition good (e : expr) (p : string * data) : Prop :=
    from e (fst p) /\ exists e', lookup m (fst p) = Some e' /\ body (snd p) = named known e' /\ (e' <> EList [] -> forall v o, snd p = DVal v o -> v <> DList []).
  Definition opened (e : expr) (d : data) : Prop :=
    ref d = named known e /\ (forall p, In p (parts d) -> good e p) /\ (forall y, from e y -> lookup m y <> None -> exists a, In (y, a) (parts d)).

  Lemma opened_list {A} (l : list (A * expr)) ds e (Hm : forall x, In x (mentions e) <-> exists a, In a l /\ In x (mentions (snd a))) :
    Forall2 (fun a d => opened (snd a) d) l ds ->
    (forall p, In p (flat_map parts ds) -> good e p) /\ (forall y, from e y -> lookup m y <> None -> exists a, In (y, a) (flat_map parts ds)).
  Proof.
    intros H. split.
    - intros p Hp. apply in_flat_map in Hp. destruct Hp as (d & Hd & Hp).
      assert (Ha : exists a, In a l /\ opened (snd a) d). { clear -H Hd. induction H; [destruct Hd|]. destruct Hd as [->|Hd]; [eexists; split; [left; reflexivity|assumption]|]. destruct (IHForall2 Hd) as (a & Ha & Ho). exists a. split; [right; exact Ha|exact Ho]. }
      destruct Ha as (a & Ha & _ & G & _). destruct (G p Hp) as (F & G'). split; [|exact G']. apply (from_sub e (snd a)); [|exact F]. intros x Hx. apply Hm. exists a. auto.
    - intros y F Hy. assert (Ha : exists a, In a l /\ from (snd a) y).
      { inv F; [apply Hm in H0; destruct H0 as (a & Ha & Hx); exists a; split; [exact Ha|apply from_here; exact Hx]|].
        apply Hm in H0. destruct H0 as (a & Ha & Hx). exists a. split; [exact Ha|eapply from_next; eauto]. }
      destruct Ha as (a & Ha & F'). assert (Hd : exists d, In d ds /\ opened (snd a) d). { clear -H Ha. induction H; [destruct Ha|]. destruct Ha as [->|Ha]; [eexists; split; [left; reflexivity|assumption]|]. destruct (IHForall2 Ha) as (d & Hd & Ho). exists d. split; [right; exact Hd|exact Ho]. }
      destruct Hd as (d & Hd & _ & _ & G). destruct (G y F' Hy) as (b & Hb). exists b. apply in_flat_map. exists d. auto.
  Qed.

  Lemma parse_val n e v o : parse known n m e = Some (DVal v o) -> exists y, e = EName y /\ lookup m y <> None.
  Proof.
    destruct n as [|n]; [discriminate|]. destruct e as [y|f a|i|i|c]; cbn [parse]; intros H.
    - exists y. split; [reflexivity|]. destruct (lookup m y); discriminate.
    - destruct (mapM _ a); discriminate.
    - destruct (mapM _ i); discriminate.
    - destruct (mapM _ i); discriminate.
    - discriminate.
  Qed.
  Lemma flat_combine {A} (l : list A) ds : List.length l = List.length ds -> flat_map (fun a : A * data => parts (snd a)) (combine l ds) = flat_map parts ds.
  Proof. revert ds. induction l as [|x l IH]; intros [|d ds] H; cbn in *; try discriminate; [reflexivity|]. f_equal. apply IH. lia. Qed.
  Lemma num_length f args : forall i, List.length (num f i args) = List.length args.
  Proof. induction args as [|[[s k] a] args IH]; intros i; cbn; [reflexivity|]. f_equal. apply IH. Qed.

  Lemma opened_parse n : forall e d, parse known n m e = Some d -> regular e -> (forall x, In x (mentions e) -> reached m root x) -> opened e d.
  Proof.
    induction n as [|n IH]; [discriminate|]. intros e d Hp Hre Hin. destruct e as [x|f args|items|items|c]; cbn [parse] in Hp.
    - destruct (lookup m x) as [e'|] eqn:El.
      2:{ injection Hp as <-. split; [reflexivity|]. split; [intros p []|]. intros y F Hy. inv F.
          - cbn in H. destruct H as [<-|[]]. contradiction.
          - cbn in H. destruct H as [<-|[]]. congruence. }
      destruct (parse known n m e') as [d'|] eqn:Ep; [|discriminate]. injection Hp as <-.
      assert (Hr := Hin x (or_introl eq_refl)). destruct (T x e' Hr El) as (Hr' & Hna & Hne).
      destruct (IH e' d' Ep Hr' ltac:(intros y Hy; eapply reached_next; eauto)) as (O1 & O2 & O3).
      assert (Hb := parse_unbound known m _ _ _ Ep Hna).
      assert (Hv : forall v o, d' <> DVal v o). { intros v o ->. destruct (parse_val _ _ _ _ Ep) as (y & -> & Hy). apply Hy. apply Hna. reflexivity. }
      assert (HD : parts (with_assign x d') = parts d' ++ [(x, with_assign x d')] /\ body (with_assign x d') = ref d' /\ ref (with_assign x d') = EName x).
      { rewrite parts_inner. destruct d' as [c|l|g a o|i o|v o]; cbn [bound] in Hb; try subst o; [| | | |exfalso; eapply Hv; reflexivity]; (split; [|split; reflexivity]); cbn [with_assign bound inner]; try reflexivity.
        - rewrite (parts_inner (DCall g a None)). cbn [bound inner]. rewrite app_nil_r. reflexivity.
        - rewrite (parts_inner (DDict i None)). cbn [bound inner]. rewrite app_nil_r. reflexivity. }
      destruct HD as (D1 & D2 & D3). split; [exact D3|]. rewrite D1. split.
      + intros p Hp. apply in_app_or in Hp. destruct Hp as [Hp|[<-|[]]].
        * destruct (O2 p Hp) as (F & G). split; [|exact G]. eapply from_next; [left; reflexivity|exact El|exact F].
        * split; [apply from_here; left; reflexivity|]. exists e'. split; [exact El|]. split; [cbn [snd]; rewrite D2; exact O1|]. intros Hne' v o Ev ->. cbn [snd] in Ev.
          destruct d' as [c|l|g a o'|i o'|v o']; cbn in Ev; try discriminate Ev.
          -- injection Ev as ->. cbn in O1. destruct e' as [?|?|?|items|?]; cbn in O1; try discriminate O1. destruct items; [apply Hne'; reflexivity|discriminate O1].
          -- eapply Hv. reflexivity.
      + intros y F Hy. inv F.
        * cbn in H. destruct H as [<-|[]]. eexists. apply in_or_app. right. left. reflexivity.
        * cbn in H. destruct H as [<-|[]]. rewrite El in H0. injection H0 as <-. destruct (O3 y H1 Hy) as (a & Ha). exists a. apply in_or_app. left. exact Ha.
    - destruct (mapM _ args) as [ds|] eqn:Em; [|discriminate]. injection Hp as <-. rewrite mapM_spec in Em. destruct (regular_call f args Hre) as (Hn & Hf).
      assert (Hm : forall x, In x (mentions (ECall f args)) <-> exists a, In a args /\ In x (mentions (snd a))) by (intros x; apply in_flat_map).
      assert (Ho : Forall2 (fun a d => opened (snd a) d) args ds).
      { clear -Em IH Hf Hin Hm. assert (Hin' : forall a, In a args -> forall x, In x (mentions (snd a)) -> reached m root x) by (intros a Ha x Hx; apply Hin; apply Hm; exists a; auto). clear Hin Hm.
        induction Em as [|a d args ds H1 H2 IHe]; constructor.
        - apply Forall_cons_iff in Hf. apply IH; [exact H1|apply Hf|apply Hin'; left; reflexivity].
        - apply Forall_cons_iff in Hf. apply IHe; [apply Hf|]. intros b Hb. apply Hin'. right. exact Hb. }
      destruct (opened_list args ds (ECall f args) Hm Ho) as (L1 & L2). rewrite Hn. split.
      + rewrite named_call. unfold ref. cbn [bound]. rewrite body_call. f_equal. clear -Ho Hf. generalize 0%nat. induction Ho as [|[[s k] a] d args ds (H1 & _) H2 IHo]; intros i; [reflexivity|].
        apply Forall_cons_iff in Hf. destruct Hf as ((Hs & _) & Hf). cbn in Hs. subst s. cbn [num map combine fst snd] in *. rewrite H1. f_equal. apply IHo. exact Hf.
      + rewrite parts_inner. cbn [bound inner]. rewrite app_nil_r, flat_combine; [split; assumption|]. rewrite map_length, num_length. clear -Ho. induction Ho; cbn; congruence.
    - destruct (mapM _ items) as [ds|] eqn:Em; [|discriminate]. injection Hp as <-. rewrite mapM_spec in Em. apply regular_dict in Hre.
      assert (Hm : forall x, In x (mentions (EDict items)) <-> exists a, In a items /\ In x (mentions (snd a))) by (intros x; apply in_flat_map).
      assert (Ho : Forall2 (fun a d => opened (snd a) d) items ds).
      { clear -Em IH Hre Hin Hm. assert (Hin' : forall a, In a items -> forall x, In x (mentions (snd a)) -> reached m root x) by (intros a Ha x Hx; apply Hin; apply Hm; exists a; auto). clear Hin Hm.
        induction Em as [|a d args ds H1 H2 IHe]; constructor.
        - apply Forall_cons_iff in Hre. apply IH; [exact H1|apply Hre|apply Hin'; left; reflexivity].
        - apply Forall_cons_iff in Hre. apply IHe; [apply Hre|]. intros b Hb. apply Hin'. right. exact Hb. }
      destruct (opened_list items ds (EDict items) Hm Ho) as (L1 & L2). split.
      + unfold ref. cbn [bound]. rewrite body_dict. cbn [named]. f_equal. clear -Ho Hre. induction Ho as [|[k a] d args ds (H1 & _) H2 IHo]; [reflexivity|].
        apply Forall_cons_iff in Hre. destruct Hre as (((s & Hs) & _) & Hre). cbn in Hs. subst k. cbn [map combine fst snd key_text] in *. rewrite H1. f_equal. apply IHo. exact Hre.
      + rewrite parts_inner. cbn [bound inner]. rewrite app_nil_r, flat_combine; [split; assumption|]. rewrite map_length. clear -Ho. induction Ho; cbn; congruence.
    - destruct (mapM _ items) as [ds|] eqn:Em; [|discriminate]. injection Hp as <-. rewrite mapM_spec in Em. apply regular_list in Hre.
      assert (Hm : forall x, In x (mentions (EList items)) <-> exists a, In a items /\ In x (mentions (snd a))) by (intros x; apply in_flat_map).
      assert (Ho : Forall2 (fun a d => opened (snd a) d) items ds).
      { clear -Em IH Hre Hin Hm. assert (Hin' : forall a, In a items -> forall x, In x (mentions (snd a)) -> reached m root x) by (intros a Ha x Hx; apply Hin; apply Hm; exists a; auto). clear Hin Hm.
        induction Em as [|a d args ds H1 H2 IHe]; constructor.
        - apply Forall_cons_iff in Hre. apply IH; [exact H1|apply Hre|apply Hin'; left; reflexivity].
        - apply Forall_cons_iff in Hre. apply IHe; [apply Hre|]. intros b Hb. apply Hin'. right. exact Hb. }
      destruct (opened_list items ds (EList items) Hm Ho) as (L1 & L2). split.
      + unfold ref. cbn [bound]. rewrite body_list. cbn [named]. f_equal. clear -Ho Hre. induction Ho as [|[k a] d args ds (H1 & _) H2 IHo]; [reflexivity|].
        apply Forall_cons_iff in Hre. destruct Hre as ((Hs & _) & Hre). cbn in Hs. subst k. cbn [map fst snd] in *. rewrite H1. f_equal. apply IHo. exact Hre.
      + rewrite parts_inner. cbn [bound inner]. rewrite app_nil_r. split; assumption.
    - injection Hp as <-. split; [reflexivity|]. split; [intros p []|]. intros y F. inv F; cbn in H; destruct H.
  Qed.

  Lemma reached_from e x : lookup m root = Some e -> reached m root x -> x = root \/ from e x.
  Proof.
    intros He. induction 1 as [|x e' y Hr IH Hl Hy]; [left; reflexivity|]. right. destruct IH as [->|F].
    - rewrite He in Hl. injection Hl as <-. apply from_here. exact Hy.
    - clear -F Hl Hy. induction F as [e x H|e z e1 x H H0 F IH]; [eapply from_next; eauto; apply from_here; exact Hy|eapply from_next; eauto].
  Qed.
  Lemma from_reached e x : lookup m root = Some e -> from e x -> reached m root x.
  Proof.
    intros He F. assert (H : forall y, lookup m y = Some e -> reached m root y -> reached m root x).
    { clear He. induction F as [e x H|e z e1 x H H0 F IH]; intros y Hy Hr; [eapply reached_next; eauto|]. apply (IH z H0). eapply reached_next; eauto. }
    apply (H root He). constructor.
  Qed.
  Lemma from_rank rank e x : (forall x e y, lookup m x = Some e -> In y (mentions e) -> lookup m y <> None -> (rank y < rank x)%nat) ->
    from e x -> lookup m x <> None -> forall z, lookup m z = Some e -> (rank x < rank z)%nat.
  Proof.
    intros Hr F Hx. induction F as [e x H|e y e1 x H H0 F IH]; intros z Hz; [eapply Hr; eauto|]. specialize (IH Hx y H0). assert (Hyz := Hr z e y Hz H ltac:(congruence)). lia.
  Qed.

  Lemma open_save_named n d : simple m -> acyclic m -> load known n m root = Some (Some d) ->
    exists m', save root d m = Some m' /\ (forall x e, reached m root x -> lookup m x = Some e -> lookup m' x = Some (named known e)) /\
      (forall y, ~ reached m root y -> lookup m' y = lookup m y).
  Proof.
    intros Hs (rank & Hr) H. unfold load in H. destruct (lookup m root) as [e|] eqn:El; [|discriminate H]. destruct (parse known n m e) as [d0|] eqn:Ep; [|discriminate H]. injection H as <-.
    destruct (T root e ltac:(constructor) El) as (Hre & Hna & _).
    destruct (opened_parse n e d0 Ep Hre ltac:(intros y Hy; eapply reached_next; [constructor|exact El|exact Hy])) as (O1 & O2 & O3).
    assert (Hb := parse_unbound known m _ _ _ Ep Hna).
    assert (Hv : forall v o, d0 <> DVal v o). { intros v o ->. destruct (parse_val _ _ _ _ Ep) as (y & -> & Hy). apply Hy. apply Hna. reflexivity. }
    assert (HD : inner (root_assign root d0) = parts d0 /\ body (root_assign root d0) = ref d0).
    { rewrite parts_inner, Hb, app_nil_r. unfold ref. rewrite Hb. destruct d0; split; try reflexivity; exfalso; eapply Hv; reflexivity. }
    destruct HD as (D1 & D2). set (D := root_assign root d0) in *. clearbody D.
    assert (Hroot : forall a, ~ In (root, a) (inner D)).
    { intros a Ha. rewrite D1 in Ha. destruct (O2 _ Ha) as (F & e' & Hl & _). cbn [fst] in *. assert (L := from_rank rank e root Hr F ltac:(congruence) root El). lia. }
    assert (Hcons : consistent root D).
    { split; [|exact Hroot]. intros x a b Ha Hb'. rewrite D1 in Ha, Hb'. destruct (O2 _ Ha) as (_ & e1 & L1 & B1 & _), (O2 _ Hb') as (_ & e2 & L2 & B2 & _). cbn [fst snd] in *. congruence. }
    assert (Hne : no_empty D).
    { intros x v a Ha. assert (Ha' := Ha). rewrite D1 in Ha. destruct (O2 _ Ha) as (F & e1 & L1 & B1 & N). cbn [fst snd] in *. eapply N; [|reflexivity].
      destruct (T x e1 (from_reached e x El F) L1) as (_ & _ & Hx). apply Hx. intros ->. apply (Hroot _ Ha'). }
    destruct (proj1 (saves root D m) Hne) as (m' & Hm'). exists m'. split; [exact Hm'|].
    destruct (saved root D m m' Hs ltac:(congruence) Hcons Hm') as (S1 & S2 & S3). split.
    - intros x e1 Hx L1. destruct (reached_from e x El Hx) as [->|F].
      + rewrite El in L1. injection L1 as <-. rewrite S1, D2, O1. reflexivity.
      + destruct (O3 x F ltac:(congruence)) as (a & Ha). destruct (O2 _ Ha) as (_ & e2 & L2 & B2 & _). cbn [fst snd] in *. rewrite (S2 x a) by (rewrite D1; exact Ha). congruence.
    - intros y Hy. apply S3; [intros ->; apply Hy; constructor|]. intros a Ha. apply Hy. rewrite D1 in Ha. destruct (O2 _ Ha) as (F & _). eapply from_reached; eauto.
  Qed.
End Named.
