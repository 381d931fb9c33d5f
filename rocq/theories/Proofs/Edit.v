From Verif.Lib Require Import Base.
From Verif.Model Require Import Editor Edit.
From Verif.Spec Require Import Editor Edit.
From Verif.Proofs Require Import Editor.
From Coq Require Import String.
Open Scope string_scope.
Local Open Scope list_scope.

Notation ref := Proofs.Editor.ref.

Lemma code_ref d : code d = ref d.
Proof.
  induction d as [e|l IH|f args a IH|items a IH|v a IH] using data_ind2; unfold ref; cbn [bound].
  - reflexivity.
  - rewrite body_list. cbn [code]. f_equal. apply map_ext_in. intros x Hx. rewrite Forall_forall in IH. rewrite (IH x Hx). reflexivity.
  - destruct a as [x|]; [reflexivity|]. rewrite body_call. cbn [code]. f_equal. apply map_ext_in. intros x Hx. rewrite Forall_forall in IH. rewrite (IH x Hx). reflexivity.
  - destruct a as [x|]; [reflexivity|]. rewrite body_dict. cbn [code]. f_equal. apply map_ext_in. intros x Hx. rewrite Forall_forall in IH. rewrite (IH x Hx). reflexivity.
  - destruct a as [x|]; [reflexivity|]. rewrite body_val. exact IH.
Qed.

Section Parsed.
  Context (m : module) (T : tidy inputs_known m "Inputs") (rank : string -> nat)
          (R : forall x e y, lookup m x = Some e -> In y (mentions e) -> lookup m y <> None -> (rank y < rank x)%nat).
  Let known := inputs_known.
  Let root := "Inputs"%string.

  (* a part which the file says the same about *)
  Definition same_part (p : string * data) : Prop := lookup m (fst p) = Some (body (snd p)) /\ body (snd p) <> EList [].
  Definition below (k : nat) (p : string * data) : Prop := (rank (fst p) < k)%nat.
  Definition inner_of (e : expr) : Prop := forall x, In x (mentions e) -> lookup m x <> None -> reached m root x /\ x <> root.

  Lemma next_inner x e : reached m root x -> lookup m x = Some e -> (rank x <= rank root)%nat -> inner_of e.
  Proof.
    intros Hr He Hk y Hy Hl. split; [eapply reached_next; eauto|]. intros ->. assert (H := R x e root He Hy Hl). lia.
  Qed.
  Lemma reached_rank x : reached m root x -> lookup m x <> None -> (rank x <= rank root)%nat.
  Proof.
    induction 1 as [|x e y Hr IH Hl Hm]; intros Hn; [lia|]. assert (H := R x e y Hl Hm Hn). assert (lookup m x <> None) by congruence. specialize (IH H0). lia.
  Qed.

  Lemma with_assign_ref x d : ref (with_assign x d) = EName x.
  Proof. destruct d; reflexivity. Qed.
  Lemma with_assign_bound x d : bound (with_assign x d) = Some x.
  Proof. destruct d; reflexivity. Qed.
  Lemma with_assign_body x d : bound d = None -> body (with_assign x d) = body d.
  Proof.
    destruct d as [e|l|f a o|i o|v o]; cbn [bound with_assign]; intros E; try subst o.
    - rewrite body_val. reflexivity.
    - rewrite body_val. reflexivity.
    - rewrite !body_call. reflexivity.
    - rewrite !body_dict. reflexivity.
    - rewrite !body_val. reflexivity.
  Qed.
  Lemma with_assign_inner x d : bound d = None -> inner (with_assign x d) = inner d.
  Proof.
    destruct d as [e|l|f a o|i o|v o]; cbn [bound with_assign]; intros E; try subst o; cbn [inner]; try reflexivity.
    rewrite parts_inner. cbn. apply app_nil_r.
  Qed.

  Lemma parse_ok n : forall e d, parse known n m e = Some d -> plain known e -> inner_of e ->
    ref d = e /\ Forall same_part (parts d) /\ Forall (fun p => fst p <> root) (parts d).
  Proof.
    induction n as [|n IH]; [discriminate|]. intros e d Hp Hpl Hin. destruct e as [x|f args|items|items|c]; cbn [parse] in Hp.
    - destruct (lookup m x) as [e'|] eqn:El; [|injection Hp as <-; split; [reflexivity|split; constructor]].
      destruct (parse known n m e') as [d'|] eqn:Ep; [|discriminate]. injection Hp as <-.
      destruct (Hin x (or_introl eq_refl)) as (Hr & Hx); [congruence|].
      destruct (T x e' Hr El) as (Ho & Hpe & Hna & Hne).
      destruct (IH e' d' Ep Hpe) as (I1 & I2 & I3). { apply (next_inner x); auto. apply reached_rank; [exact Hr|congruence]. }
      assert (Hb := parse_unbound known m _ _ _ Ep Hna).
      split; [apply with_assign_ref|]. rewrite parts_inner, with_assign_bound, with_assign_inner by exact Hb.
      assert (Hbody : body d' = e'). { rewrite <- I1. unfold ref. rewrite Hb. reflexivity. }
      rewrite parts_inner, Hb, app_nil_r in I2, I3.
      split; apply Forall_app; (split; [assumption|constructor; [|constructor]]); cbn [fst snd].
      + unfold same_part. cbn [fst snd]. rewrite with_assign_body by exact Hb. rewrite Hbody. split; [exact El|]. apply Hne. exact Hx.
      + exact Hx.
    - destruct (mapM _ args) as [ds|] eqn:Em; [|discriminate]. injection Hp as <-. rewrite mapM_spec in Em.
      rewrite (args_named known f args Hpl). apply plain_call in Hpl.
      assert (G : map (fun x => (false, fst x, ref (snd x))) (combine (map (fun a => snd (fst a)) args) ds) = args /\
                  Forall same_part (flat_map (fun a => parts (snd a)) (combine (map (fun a => snd (fst a)) args) ds)) /\
                  Forall (fun p => fst p <> root) (flat_map (fun a => parts (snd a)) (combine (map (fun a => snd (fst a)) args) ds))).
      { unfold inner_of in Hin. cbn [mentions] in Hin. clear -Em Hin Hpl IH.
        induction Em as [|[[s k] a] d args ds H1 H2 IHe]; cbn; [repeat split; constructor|]. inv Hpl. destruct H3 as (Hs & Hpa). cbn in Hs. subst s.
        destruct (IH a d H1 Hpa) as (I1 & I2 & I3). { intros x Hx. apply Hin. cbn. apply in_or_app. auto. }
        destruct (IHe H4) as (J1 & J2 & J3). { intros x Hx. apply Hin. cbn. apply in_or_app. auto. }
        split; [cbn in I1; rewrite I1, J1; reflexivity|]. split; apply Forall_app; auto. }
      destruct G as (G1 & G2 & G3). split; [unfold ref; cbn [bound]; rewrite body_call, G1; reflexivity|].
      rewrite parts_inner. cbn [bound inner]. rewrite app_nil_r. auto.
    - destruct (mapM _ items) as [ds|] eqn:Em; [|discriminate]. injection Hp as <-. rewrite mapM_spec in Em. apply plain_dict in Hpl.
      assert (G : map (fun x => (KText (fst x), ref (snd x))) (combine (map (fun a => key_text (fst a)) items) ds) = items /\
                  Forall same_part (flat_map (fun a => parts (snd a)) (combine (map (fun a => key_text (fst a)) items) ds)) /\
                  Forall (fun p => fst p <> root) (flat_map (fun a => parts (snd a)) (combine (map (fun a => key_text (fst a)) items) ds))).
      { unfold inner_of in Hin. cbn [mentions] in Hin. clear -Em Hin Hpl IH.
        induction Em as [|[k a] d items ds H1 H2 IHe]; cbn; [repeat split; constructor|]. inv Hpl. destruct H3 as ((s & Hs) & Hpa). cbn in Hs. subst k.
        destruct (IH a d H1 Hpa) as (I1 & I2 & I3). { intros x Hx. apply Hin. cbn. apply in_or_app. auto. }
        destruct (IHe H4) as (J1 & J2 & J3). { intros x Hx. apply Hin. cbn. apply in_or_app. auto. }
        split; [cbn in I1; rewrite I1, J1; reflexivity|]. split; apply Forall_app; auto. }
      destruct G as (G1 & G2 & G3). split; [unfold ref; cbn [bound]; rewrite body_dict, G1; reflexivity|].
      rewrite parts_inner. cbn [bound inner]. rewrite app_nil_r. auto.
    - destruct (mapM _ items) as [ds|] eqn:Em; [|discriminate]. injection Hp as <-. rewrite mapM_spec in Em. apply plain_list in Hpl.
      assert (G : map (fun x => (false, ref x)) ds = items /\ Forall same_part (flat_map parts ds) /\ Forall (fun p => fst p <> root) (flat_map parts ds)).
      { unfold inner_of in Hin. cbn [mentions] in Hin. clear -Em Hin Hpl IH.
        induction Em as [|[k a] d items ds H1 H2 IHe]; cbn; [repeat split; constructor|]. inv Hpl. destruct H3 as (Hs & Hpa). cbn in Hs. subst k.
        destruct (IH a d H1 Hpa) as (I1 & I2 & I3). { intros x Hx. apply Hin. cbn. apply in_or_app. auto. }
        destruct (IHe H4) as (J1 & J2 & J3). { intros x Hx. apply Hin. cbn. apply in_or_app. auto. }
        split; [cbn in I1; rewrite I1, J1; reflexivity|]. split; apply Forall_app; auto. }
      destruct G as (G1 & G2 & G3). split; [unfold ref; cbn [bound]; rewrite body_list, G1; reflexivity|].
      rewrite parts_inner. cbn [bound inner]. rewrite app_nil_r. auto.
    - injection Hp as <-. split; [reflexivity|split; constructor].
  Qed.

  (* ---- values of the loaded data ---- *)
  Definition val (e : expr) (d : data) : Prop := exists n, parse known n m e = Some d /\ plain known e /\ inner_of e.
  Definition sound (d : data) : Prop := Forall same_part (parts d) /\ Forall (fun p => fst p <> root) (parts d).
  Lemma val_ref e d : val e d -> ref d = e.
  Proof. intros (n & H & Hp & Hi). apply (parse_ok n e d H Hp Hi). Qed.
  Lemma val_sound e d : val e d -> sound d.
  Proof. intros (n & H & Hp & Hi). apply (parse_ok n e d H Hp Hi). Qed.

  Lemma val_dict items d : val (EDict items) d -> exists ds, d = DDict ds None /\ Forall2 (fun x y => fst x = KText (fst y) /\ val (snd x) (snd y)) items ds.
  Proof.
    intros (n & H & Hp & Hi). destruct n as [|n]; [discriminate|]. cbn [parse] in H. destruct (mapM _ items) as [ds|] eqn:Em; [|discriminate]. injection H as <-.
    rewrite mapM_spec in Em. apply plain_dict in Hp. eexists. split; [reflexivity|]. unfold inner_of in Hi. cbn [mentions] in Hi. clear -Em Hp Hi.
    induction Em as [|[k a] d items ds H1 H2 IH]; cbn; constructor.
    - inv Hp. destruct H3 as ((s & Hs) & Hpa). cbn in Hs. subst k. cbn. split; [reflexivity|]. exists n. split; [exact H1|]. split; [exact Hpa|].
      intros x Hx. apply Hi. cbn. apply in_or_app. auto.
    - inv Hp. apply IH; [assumption|]. intros x Hx. apply Hi. cbn. apply in_or_app. auto.
  Qed.
  Lemma val_list items d : val (EList items) d -> exists ds, d = DList ds /\ Forall2 val (map snd items) ds /\ map (fun x => (false, snd x)) items = items.
  Proof.
    intros (n & H & Hp & Hi). destruct n as [|n]; [discriminate|]. cbn [parse] in H. destruct (mapM _ items) as [ds|] eqn:Em; [|discriminate]. injection H as <-.
    rewrite mapM_spec in Em. apply plain_list in Hp. eexists. split; [reflexivity|]. unfold inner_of in Hi. cbn [mentions] in Hi. clear -Em Hp Hi. split.
    2:{ clear -Hp. induction Hp as [|[s e] l (H & _) Hp IH]; cbn in *; [reflexivity|]. rewrite IH, H. reflexivity. }
    induction Em as [|[k a] d items ds H1 H2 IH]; cbn; constructor.
    - inv Hp. destruct H3 as (Hs & Hpa). exists n. split; [exact H1|]. split; [exact Hpa|]. intros x Hx. apply Hi. cbn. apply in_or_app. auto.
    - inv Hp. apply IH; [assumption|]. intros x Hx. apply Hi. cbn. apply in_or_app. auto.
  Qed.
  Lemma val_call f args d : val (ECall f args) d -> exists ds, d = DCall f ds None /\ Forall2 (fun x y => x = (false, fst y, snd x) /\ val (snd x) (snd y)) args ds.
  Proof.
    intros (n & H & Hp & Hi). destruct n as [|n]; [discriminate|]. cbn [parse] in H. destruct (mapM _ args) as [ds|] eqn:Em; [|discriminate]. injection H as <-.
    rewrite mapM_spec in Em. rewrite (args_named known f args Hp). apply plain_call in Hp. eexists. split; [reflexivity|]. unfold inner_of in Hi. cbn [mentions] in Hi. clear -Em Hp Hi.
    induction Em as [|[[s k] a] d args ds H1 H2 IH]; cbn; constructor.
    - inv Hp. destruct H3 as (Hs & Hpa). cbn in Hs. subst s. cbn. split; [reflexivity|]. exists n. split; [exact H1|]. split; [exact Hpa|].
      intros x Hx. apply Hi. cbn. apply in_or_app. auto.
    - inv Hp. apply IH; [assumption|]. intros x Hx. apply Hi. cbn. apply in_or_app. auto.
  Qed.
  Lemma val_name x d : val (EName x) d -> (lookup m x = None /\ d = DCode (EName x)) \/ exists e' d', lookup m x = Some e' /\ val e' d' /\ d = with_assign x d' /\ bound d' = None.
  Proof.
    intros (n & H & Hp & Hi). destruct n as [|n]; [discriminate|]. cbn [parse] in H. destruct (lookup m x) as [e'|] eqn:El.
    - destruct (parse known n m e') as [d'|] eqn:Ep; [|discriminate]. injection H as <-. right. exists e', d'.
      destruct (Hi x (or_introl eq_refl)) as (Hr & Hx); [congruence|]. destruct (T x e' Hr El) as (_ & Hpe & Hna & _).
      split; [reflexivity|]. split; [|split; [reflexivity|eapply parse_unbound; eauto]]. exists n. split; [exact Ep|]. split; [exact Hpe|].
      apply (next_inner x); auto. apply reached_rank; [exact Hr|congruence].
    - injection H as <-. left. auto.
  Qed.
  Lemma val_code e c : val e (DCode c) -> e = c.
  Proof.
    intros (n & H & _). destruct n as [|n]; [discriminate|]. destruct e as [x|f args|items|items|c']; cbn [parse] in H.
    - destruct (lookup m x); [destruct (parse _ _ _ _) as [d'|]; [destruct d'; discriminate|discriminate]|]. congruence.
    - destruct (mapM _ _); discriminate.
    - destruct (mapM _ _); discriminate.
    - destruct (mapM _ _); discriminate.
    - congruence.
  Qed.

  (* ---- an action which is written again ---- *)
  Lemma page_again p d : plain_page p -> val p d -> exists d', repage d = Some d' /\ ref d' = p /\ sound d'.
  Proof.
    intros (i & c & t & ->) H. cbn [page_code] in H. apply val_dict in H. destruct H as (ds & -> & H).
    destruct c as [c|], t as [t|]; cbn in H;
      repeat match goal with H : Forall2 _ (_ :: _) _ |- _ => inv H | H : Forall2 _ [] _ |- _ => inv H end;
      repeat match goal with H : _ /\ _ |- _ => destruct H end;
      repeat match goal with y : (string * data)%type |- _ => destruct y as [? ?] end; cbn in *;
      repeat match goal with H : KText _ = KText _ |- _ => injection H as <- end;
      (eexists; split; [unfold repage; cbn; reflexivity|]; split;
        [unfold ref; cbn [bound]; rewrite body_dict; cbn [map app fst snd]; repeat (erewrite val_ref by eassumption); reflexivity|]);
      unfold sound; rewrite !parts_inner; cbn [bound inner flat_map app snd]; rewrite ?app_nil_r;
      repeat match goal with H : val _ _ |- _ => apply val_sound in H; destruct H end;
      split; repeat (apply Forall_app; split); assumption.
  Qed.

  Lemma call_again f args d : good_call (ECall f args) -> val (ECall f args) d ->
    exists ds ds', d = DCall f ds None /\ mapM (rearg f) ds = Some ds' /\ map (fun x => (false, fst x, ref (snd x))) ds' = args /\
      Forall same_part (flat_map (fun a => parts (snd a)) ds') /\ Forall (fun p => fst p <> root) (flat_map (fun a => parts (snd a)) ds').
  Proof.
    intros (f0 & a0 & E0 & Hg) H. injection E0 as <- <-. apply val_call in H. destruct H as (ds & -> & H). exists ds.
    cut (exists ds', mapM (rearg f) ds = Some ds' /\ map (fun x => (false, fst x, ref (snd x))) ds' = args /\
      Forall same_part (flat_map (fun a => parts (snd a)) ds') /\ Forall (fun p => fst p <> root) (flat_map (fun a => parts (snd a)) ds')).
    { intros (ds' & G). exists ds'. split; [reflexivity|]. exact G. }
    induction H as [|[[s k] e] [k' d] args ds H1 H0 IH]; [exists []; repeat split; constructor|].
    destruct H1 as (H1 & H2). cbn in H1, H2. injection H1 as -> ->.
    destruct IH as (ds' & I1 & I2 & I3 & I4). { intros Hf s v Hs. apply (Hg Hf s v). right. exact Hs. }
    cbn [mapM]. unfold rearg at 1. cbn [fst snd].
    destruct (is_pages f k') eqn:Ep.
    - destruct f as [x| | | |]; try discriminate. destruct k' as [y|]; [|discriminate]. cbn in Ep. apply andb_prop in Ep. destruct Ep as (Ex & Ey).
      apply String.eqb_eq in Ex. apply String.eqb_eq in Ey. subst x y.
      destruct (Hg eq_refl false e (or_introl eq_refl)) as (l & -> & Hl). apply val_list in H2. destruct H2 as (pd & -> & H2 & Hs).
      assert (G : exists pd', mapM repage pd = Some pd' /\ map (fun x => (false, ref x)) pd' = map (fun x => (false, snd x)) l /\ Forall same_part (flat_map parts pd') /\ Forall (fun p => fst p <> root) (flat_map parts pd')).
      { clear -Hl H2 T R. revert pd H2. induction Hl as [|x l Hx Hl IHl]; intros pd H2; cbn in H2; inv H2; [exists []; repeat split; constructor|].
        destruct (page_again _ _ Hx ltac:(eassumption)) as (d' & P1 & P2 & P3 & P4). destruct (IHl _ ltac:(eassumption)) as (pd' & Q1 & Q2 & Q3 & Q4).
        exists (d' :: pd'). cbn [mapM map flat_map]. rewrite P1, Q1, P2, Q2. split; [reflexivity|]. split; [reflexivity|]. split; apply Forall_app; auto. }
      destruct G as (pd' & G1 & G2 & G3 & G4). rewrite G1, I1. eexists. split; [reflexivity|]. cbn [map fst snd flat_map].
      assert (E1 : ref (DList pd') = EList l). { unfold ref. cbn [bound]. rewrite body_list, G2, Hs. reflexivity. }
      rewrite E1, I2. split; [reflexivity|]. rewrite parts_inner. cbn [bound inner]. rewrite app_nil_r. split; apply Forall_app; auto.
    - rewrite I1. eexists. split; [reflexivity|]. cbn [map fst snd flat_map parts app]. rewrite I2, code_ref, (val_ref _ _ H2). auto.
  Qed.

  Lemma action_again e d : good_action m e -> val e d -> exists d', rewritten d = Some d' /\ ref d' = e /\ sound d'.
  Proof.
    intros [Hg|(x & e' & -> & Hl & Hg)] H.
    - pose proof Hg as Hg0. destruct Hg0 as (f & args & -> & _). destruct (call_again f args d Hg H) as (ds & ds' & -> & E1 & E2 & E3 & E4).
      cbn [rewritten]. rewrite E1. eexists. split; [reflexivity|]. split.
      + unfold ref. cbn [bound]. rewrite body_call, E2. reflexivity.
      + unfold sound. rewrite parts_inner. cbn [bound inner]. rewrite app_nil_r. auto.
    - assert (S := val_sound _ _ H). apply val_name in H. destruct H as [(H & _)|(e'' & d' & Hl' & Hv & -> & Hb)]; [congruence|].
      rewrite Hl in Hl'. injection Hl' as <-. pose proof Hg as Hg0. destruct Hg0 as (f & args & -> & _).
      destruct (call_again f args d' Hg Hv) as (ds & ds' & -> & E1 & E2 & E3 & E4).
      cbn [with_assign rewritten]. rewrite E1. eexists. split; [reflexivity|]. split; [reflexivity|].
      unfold sound in *. rewrite parts_inner in S |- *. cbn [bound inner with_assign] in *. destruct S as (S1 & S2). apply Forall_app in S1, S2. destruct S1 as (_ & S1), S2 as (_ & S2).
      split; apply Forall_app; (split; [assumption|]); [|constructor; [exact (Forall_inv S2)|constructor]]. constructor; [|constructor]. unfold same_part in *. cbn [fst snd] in *.
      rewrite body_call, E2. rewrite Hl. split; [reflexivity|discriminate].
  Qed.

  (* ---- entries ---- *)
  Definition lname (h : bool) : string := if h then "actionsHold" else "actions".
  Lemma lname_eq h : list_name h = lname h. Proof. reflexivity. Qed.
  Definition pairs (its : list (key * expr)) (ds : list (string * data)) : Prop := Forall2 (fun x y => fst x = KText (fst y) /\ val (snd x) (snd y)) its ds.
  Definition ent (e : expr) (d : data) : Prop := exists its ds, e = EDict its /\ d = DDict ds None /\ pairs its ds.
  Definition named (ds : list (string * data)) : list (option string * data) := map (fun x => (Some (fst x), snd x)) ds.

  Lemma find_pairs name its ds : pairs its ds ->
    (entry_value name its = None /\ find_arg name (named ds) = None) \/ (exists e d, entry_value name its = Some e /\ find_arg name (named ds) = Some d /\ val e d).
  Proof.
    induction 1 as [|[k e] [k' d] its ds H1 H2 IH]; [left; auto|]. destruct H1 as (H1 & Hv). cbn in H1, Hv. subst k. cbn.
    destruct (String.eqb k' name); [right; eauto|exact IH].
  Qed.
  Lemma is_for_ent k e d : lookup m k = None -> ent e d -> is_for k d = entry_of k e.
  Proof.
    intros Hk (its & ds & -> & -> & H). unfold is_for, entry_of. cbn [arguments value_in].
    destruct (find_pairs "assignment" its ds H) as [(E1 & E2)|(e & d & E1 & E2 & Hv)]; unfold named in E2; rewrite E1, E2; [reflexivity|].
    destruct d as [c| | | |].
    - apply val_code in Hv. subst c. reflexivity.
    - destruct e as [x| | | |]; try reflexivity. apply val_name in Hv. destruct Hv as [(_ & Hv)|(e' & d' & Hl & _ & Hv & _)]; [discriminate|]. destruct (String.eqb_spec x k); [congruence|reflexivity].
    - destruct e as [x| | | |]; try reflexivity. apply val_name in Hv. destruct Hv as [(_ & Hv)|(e' & d' & Hl & _ & Hv & _)]; [discriminate|]. destruct (String.eqb_spec x k); [congruence|reflexivity].
    - destruct e as [x| | | |]; try reflexivity. apply val_name in Hv. destruct Hv as [(_ & Hv)|(e' & d' & Hl & _ & Hv & _)]; [discriminate|]. destruct (String.eqb_spec x k); [congruence|reflexivity].
    - destruct e as [x| | | |]; try reflexivity. apply val_name in Hv. destruct Hv as [(_ & Hv)|(e' & d' & Hl & _ & Hv & _)]; [discriminate|]. destruct (String.eqb_spec x k); [congruence|reflexivity].
  Qed.

  Context (none : lookup m "None" = None).
  Lemma is_none_val e d : val e d -> negb (is_none d) = proper e.
  Proof.
    intros H. destruct e as [x|f args|items|items|c].
    - cbn [proper]. apply val_name in H. destruct H as [(_ & ->)|(e' & d' & Hl & _ & -> & _)]; [reflexivity|].
      destruct (String.eqb_spec x "None"); [congruence|]. destruct d'; reflexivity.
    - apply val_call in H. destruct H as (ds & -> & _). reflexivity.
    - apply val_dict in H. destruct H as (ds & -> & _). reflexivity.
    - apply val_list in H. destruct H as (ds & -> & _). reflexivity.
    - destruct H as (n & H & _). destruct n as [|n]; [discriminate|]. cbn in H. injection H as <-. reflexivity.
  Qed.
  Definition lst (h : bool) (L : list expr) (d : data) : Prop := exists l, actions_of h d = Some l /\ Forall2 val L l.
  Lemma ent_lst h e d : ent e d -> (forall v, value_in (lname h) e = Some v -> exists l, v = EList l) -> lst h (listed_in (value_in (lname h) e)) d.
  Proof.
    intros (its & ds & -> & -> & H) Hl. unfold lst, actions_of. cbn [arguments value_in] in *. rewrite lname_eq.
    destruct (find_pairs (lname h) its ds H) as [(E1 & E2)|(e & d & E1 & E2 & Hv)]; unfold named in E2; rewrite E2; rewrite E1 in *; cbn [listed_in].
    - exists []. auto.
    - destruct (Hl e eq_refl) as (l & ->). apply val_list in Hv. destruct Hv as (ld & -> & Hv & _). eexists. split; [reflexivity|].
      clear -Hv none T R. induction Hv as [|x y L0 l0 Hx Hv IH]; cbn [filter]; [constructor|]. rewrite (is_none_val x y Hx). destruct (proper x); auto.
  Qed.
  Lemma blank_ent n : lookup m n = None -> ent (EDict [(KText "assignment", EName n)]) (DDict [("assignment", DCode (EName n))] None).
  Proof.
    intros H. eexists _, _. split; [reflexivity|]. split; [reflexivity|]. constructor; [|constructor]. split; [reflexivity|]. cbn [snd].
    exists 1%nat. split; [cbn; rewrite H; reflexivity|]. split; [exact I|]. intros x [<-|[]] Hx. congruence.
  Qed.
  Lemma ent_ref e d : ent e d -> ref d = e.
  Proof.
    intros (its & ds & -> & -> & H). unfold ref. cbn [bound]. rewrite body_dict. f_equal.
    induction H as [|[k e] [k' d] its ds H1 H2 IH]; [reflexivity|]. destruct H1 as (H1 & Hv). cbn in H1, Hv |- *. rewrite IH, (val_ref _ _ Hv), H1. reflexivity.
  Qed.
  Lemma ent_sound e d : ent e d -> sound d.
  Proof.
    intros (its & ds & -> & -> & H). unfold sound. rewrite parts_inner. cbn [bound inner]. rewrite app_nil_r.
    induction H as [|[k e] [k' d] its ds H1 H2 IH]; [split; constructor|]. destruct H1 as (_ & Hv). apply val_sound in Hv. cbn [flat_map snd] in *. destruct IH, Hv.
    split; apply Forall_app; auto.
  Qed.

  (* ---- writing lists ---- *)
  Fixpoint eput (name : string) (v : expr) (its : list (key * expr)) : list (key * expr) :=
    match its with
    | [] => [(KText name, v)]
    | (KText k, w) :: its => if String.eqb k name then (KText k, v) :: its else (KText k, w) :: eput name v its
    | (KToken k, w) :: its => (KToken k, w) :: eput name v its
    end.
  Definition elist (L : list expr) : expr := EList (map (pair false) L).
  Definition eset (h : bool) (L : list expr) (e : expr) : expr := match e with EDict its => EDict (eput (lname h) (elist L) its) | _ => e end.

  Lemma put_ref name v ds : map (fun x => (KText (fst x), ref (snd x))) (put_item name v ds) = eput name (ref v) (map (fun x => (KText (fst x), ref (snd x))) ds).
  Proof. induction ds as [|[k d] ds IH]; [reflexivity|]. cbn. destruct (String.eqb k name); [reflexivity|]. cbn. rewrite IH. reflexivity. Qed.
  Lemma list_ref l : ref (DList l) = elist (map ref l).
  Proof. unfold ref. cbn [bound]. rewrite body_list. unfold elist. rewrite map_map. reflexivity. Qed.
  Lemma set_ref h l ds : ref (set_actions h l (DDict ds None)) = eset h (map ref l) (ref (DDict ds None)).
  Proof. unfold set_actions, set_argument. unfold ref at 1 3. cbn [bound]. rewrite !body_dict, put_ref, list_ref. reflexivity. Qed.
  Lemma eput_same name v its : entry_value name (eput name v its) = Some v.
  Proof.
    induction its as [|[[k|k] w] its IH]; cbn; [rewrite String.eqb_refl; reflexivity| |exact IH].
    destruct (String.eqb k name) eqn:E; cbn; rewrite E; auto.
  Qed.
  Lemma eput_other name v s its : s <> name -> entry_value s (eput name v its) = entry_value s its.
  Proof.
    intros Hs. induction its as [|[[k|k] w] its IH]; cbn.
    - destruct (String.eqb_spec name s); [congruence|reflexivity].
    - destruct (String.eqb_spec k name) as [->|Hk]; cbn; [|rewrite IH; reflexivity].
      destruct (String.eqb_spec name s); [congruence|reflexivity].
    - exact IH.
  Qed.
  Lemma put_find_other name v s ds : s <> name -> find_arg s (named (put_item name v ds)) = find_arg s (named ds).
  Proof.
    intros Hs. unfold named. induction ds as [|[k w] ds IH]; cbn.
    - destruct (String.eqb_spec name s); [congruence|reflexivity].
    - destruct (String.eqb_spec k name) as [->|Hk]; cbn; [|rewrite IH; reflexivity].
      destruct (String.eqb_spec name s); [congruence|reflexivity].
  Qed.
  Lemma lname_neq h h' : h <> h' -> lname h <> lname h'.
  Proof. destruct h, h'; intros H E; try discriminate; congruence. Qed.
  Lemma set_other h h' l ds : h <> h' -> actions_of h (set_actions h' l (DDict ds None)) = actions_of h (DDict ds None).
  Proof.
    intros H. unfold actions_of, set_actions, set_argument. cbn [arguments]. rewrite !lname_eq.
    change (map (fun x => (Some (fst x), snd x)) (put_item (lname h') (DList l) ds)) with (named (put_item (lname h') (DList l) ds)).
    rewrite put_find_other by (apply lname_neq; exact H). reflexivity.
  Qed.

  Lemma put_parts (Q : string * data -> Prop) name v ds : Forall Q (parts v) -> Forall Q (flat_map (fun a => parts (snd a)) ds) -> Forall Q (flat_map (fun a => parts (snd a)) (put_item name v ds)).
  Proof.
    intros Hv. induction ds as [|[k d] ds IH]; cbn [put_item flat_map]; intros H.
    - cbn. rewrite app_nil_r. exact Hv.
    - cbn [snd] in H. apply Forall_app in H. destruct H as (H1 & H2). destruct (String.eqb k name); cbn [flat_map snd]; apply Forall_app; auto.
  Qed.
  Lemma set_parts (Q : string * data -> Prop) h l ds : Forall Q (flat_map parts l) -> Forall Q (parts (DDict ds None)) -> Forall Q (parts (set_actions h l (DDict ds None))).
  Proof.
    intros Hl. unfold set_actions, set_argument. rewrite !parts_inner. cbn [bound inner]. rewrite !app_nil_r. apply put_parts.
    rewrite parts_inner. cbn [bound inner]. rewrite app_nil_r. exact Hl.
  Qed.
  Lemma same_parts (Q : string * data -> Prop) d : (forall p, same_part p -> fst p <> root -> Q p) -> sound d -> Forall Q (parts d).
  Proof. intros H (H1 & H2). rewrite Forall_forall in *. auto. Qed.

  (* the lists which are written again *)
  Lemma again_list L l : Forall2 val L l -> Forall (good_action m) L -> exists l', mapM rewritten l = Some l' /\ map ref l' = L /\ Forall sound l'.
  Proof.
    induction 1 as [|e d L l H1 H2 IH]; intros Hg; [exists []; repeat split; constructor|]. inv Hg. destruct (action_again e d) as (d' & A1 & A2 & A3); auto.
    destruct IH as (l' & I1 & I2 & I3); auto. exists (d' :: l'). cbn [mapM map]. rewrite A1, I1, A2, I2. repeat split; auto.
  Qed.
  Lemma remove_at_eq {A} i (l : list A) : remove_at i l = firstn i l ++ skipn (S i) l.
  Proof. revert i. induction l as [|x l IH]; intros [|i]; cbn; try reflexivity. rewrite IH. reflexivity. Qed.
  Lemma Forall2_remove {A B} (P : A -> B -> Prop) i L l : Forall2 P L l -> Forall2 P (remove_at i L) (remove_at i l).
  Proof. intros H. revert i. induction H; intros [|i]; cbn; auto. Qed.

  (* ---- one entry ---- *)
  Section Step.
    Context (Q : string * data -> Prop) (HQ : forall p, same_part p -> fst p <> root -> Q p).
    Lemma sounds_parts l : Forall sound l -> Forall Q (flat_map parts l).
    Proof. induction 1 as [|d l H1 H2 IH]; cbn; [constructor|]. apply Forall_app. split; [apply same_parts; auto|exact IH]. Qed.

    Definition gives (f : data -> option data) (d : data) (F : expr -> expr) (e : expr) : Prop := exists d', f d = Some d' /\ ref d' = F e /\ Forall Q (parts d').

    Lemma add_ok h y e d : ent e d -> (forall v, value_in (lname h) e = Some v -> exists l, v = EList l) -> Forall (good_action m) (listed_in (value_in (lname h) e)) ->
      Forall Q (parts y) -> gives (change_list h (fun a => a ++ [y])) d (eset h (listed_in (value_in (lname h) e) ++ [ref y])) e.
    Proof.
      intros He Hl Hg Hy. destruct (ent_lst h e d He Hl) as (l & Ha & Hv). destruct (again_list _ _ Hv Hg) as (l' & A1 & A2 & A3).
      unfold gives, change_list. rewrite Ha, A1. eexists. split; [reflexivity|]. pose proof (ent_ref e d He) as Er. pose proof (ent_sound e d He) as Es.
      destruct He as (its & ds & -> & -> & Hp). split.
      - rewrite set_ref, map_app, A2, Er. reflexivity.
      - apply set_parts; [|apply same_parts; auto]. rewrite flat_map_app. apply Forall_app. split; [apply sounds_parts; exact A3|]. cbn. rewrite app_nil_r. exact Hy.
    Qed.
    Lemma remove_ok h i e d : ent e d -> (forall v, value_in (lname h) e = Some v -> exists l, v = EList l) ->
      Forall (good_action m) (remove_at i (listed_in (value_in (lname h) e))) ->
      gives (remove_list h i) d (eset h (remove_at i (listed_in (value_in (lname h) e)))) e.
    Proof.
      intros He Hl Hg. destruct (ent_lst h e d He Hl) as (l & Ha & Hv). destruct (again_list _ _ (Forall2_remove val i _ _ Hv) Hg) as (l' & A1 & A2 & A3).
      unfold gives, remove_list. rewrite Ha, A1. eexists. split; [reflexivity|]. pose proof (ent_ref e d He) as Er. pose proof (ent_sound e d He) as Es.
      destruct He as (its & ds & -> & -> & Hp). split.
      - rewrite set_ref, A2, Er. reflexivity.
      - apply set_parts; [|apply same_parts; auto]. apply sounds_parts. exact A3.
    Qed.
    Lemma rehold_ok h i y e d : ent e d -> (forall h v, value_in (lname h) e = Some v -> exists l, v = EList l) ->
      Forall (good_action m) (remove_at i (listed_in (value_in (lname h) e))) -> Forall (good_action m) (listed_in (value_in (lname (negb h)) e)) -> Forall Q (parts y) ->
      gives (fun x => match remove_list h i x with Some z => change_list (negb h) (fun a => a ++ [y]) z | None => None end) d
        (fun e => eset (negb h) (listed_in (value_in (lname (negb h)) e) ++ [ref y]) (eset h (remove_at i (listed_in (value_in (lname h) e))) e)) e.
    Proof.
      intros He Hl Hg Hg' Hy. destruct (ent_lst h e d He (Hl h)) as (l & Ha & Hv). destruct (again_list _ _ (Forall2_remove val i _ _ Hv) Hg) as (l' & A1 & A2 & A3).
      destruct (ent_lst (negb h) e d He (Hl (negb h))) as (k & Hb & Hw). destruct (again_list _ _ Hw Hg') as (k' & B1 & B2 & B3).
      unfold gives, remove_list, change_list. rewrite Ha, A1. pose proof (ent_ref e d He) as Er. pose proof (ent_sound e d He) as Es.
      destruct He as (its & ds & -> & -> & Hp). rewrite set_other by (destruct h; discriminate). rewrite Hb, B1. eexists. split; [reflexivity|]. split.
      - unfold set_actions at 2, set_argument. rewrite set_ref, map_app, B2. cbn [map]. f_equal.
        change (DDict (put_item (list_name h) (DList l') ds) None) with (set_actions h l' (DDict ds None)). rewrite set_ref, A2, Er. reflexivity.
      - unfold set_actions at 2, set_argument. apply set_parts.
        + rewrite flat_map_app. apply Forall_app. split; [apply sounds_parts; exact B3|]. cbn. rewrite app_nil_r. exact Hy.
        + change (DDict (put_item (list_name h) (DList l') ds) None) with (set_actions h l' (DDict ds None)). apply set_parts; [apply sounds_parts; exact A3|apply same_parts; auto].
    Qed.
    Lemma replace_ok h i y e d : ent e d -> (forall v, value_in (lname h) e = Some v -> exists l, v = EList l) ->
      Forall (good_action m) (remove_at i (listed_in (value_in (lname h) e))) -> Forall Q (parts y) ->
      gives (replace_list h i y) d (eset h (let L := listed_in (value_in (lname h) e) in if (i <? List.length L)%nat then firstn i L ++ ref y :: skipn (S i) L else L)) e.
    Proof.
      intros He Hl Hg Hy. destruct (ent_lst h e d He Hl) as (l & Ha & Hv). destruct (again_list _ _ (Forall2_remove val i _ _ Hv) Hg) as (l' & A1 & A2 & A3).
      unfold gives, replace_list. rewrite Ha, A1. eexists. split; [reflexivity|]. pose proof (ent_ref e d He) as Er. pose proof (ent_sound e d He) as Es.
      set (L := listed_in (value_in (lname h) e)) in *. assert (Hlen : List.length l = List.length L) by (clear -Hv; induction Hv; cbn; congruence).
      destruct He as (its & ds & -> & -> & Hp). split.
      - rewrite set_ref, Er. cbn zeta. f_equal. rewrite Hlen. destruct (Nat.ltb_spec i (List.length L)) as [Hi|Hi].
        + rewrite map_app. cbn [map]. rewrite <- firstn_map, <- skipn_map, A2, remove_at_eq.
          rewrite firstn_app, firstn_firstn, skipn_app, firstn_length, Nat.min_id. replace (i - Nat.min i (List.length L))%nat with 0%nat by lia. cbn [firstn skipn]. rewrite app_nil_r.
          f_equal. f_equal. rewrite skipn_all2 by (rewrite firstn_length; lia). reflexivity.
        + rewrite A2, remove_at_eq, firstn_all2, skipn_all2 by lia. apply app_nil_r.
      - apply set_parts; [|apply same_parts; auto]. apply sounds_parts in A3. destruct (i <? List.length l)%nat; [|exact A3].
        rewrite flat_map_app. cbn [flat_map]. rewrite <- (firstn_skipn i l'), flat_map_app in A3. apply Forall_app in A3. destruct A3. repeat (apply Forall_app; split); auto.
    Qed.
    Lemma arrange_ok old g a b e d : ent e d -> mapM (item_data old) (filter (fun x => negb (is_hold x)) g) = Some a -> mapM (item_data old) (filter is_hold g) = Some b ->
      Forall sound a -> Forall sound b -> gives (arrange old g) d (fun e => eset true (map ref b) (eset false (map ref a) e)) e.
    Proof.
      intros He Ha Hb Sa Sb. unfold gives, arrange. rewrite Ha, Hb. eexists. split; [reflexivity|]. pose proof (ent_ref e d He) as Er. pose proof (ent_sound e d He) as Es.
      destruct He as (its & ds & -> & -> & Hp). split.
      - unfold set_actions at 2, set_argument. rewrite set_ref. f_equal. change (DDict (put_item (list_name false) (DList a) ds) None) with (set_actions false a (DDict ds None)).
        rewrite set_ref, Er. reflexivity.
      - unfold set_actions at 2, set_argument. apply set_parts; [apply sounds_parts; exact Sb|].
        change (DDict (put_item (list_name false) (DList a) ds) None) with (set_actions false a (DDict ds None)). apply set_parts; [apply sounds_parts; exact Sa|apply same_parts; auto].
    Qed.

    (* ---- the list of entries ---- *)
    Definition blank (n : string) : expr := EDict [(KText "assignment", EName n)].
    Fixpoint on_entry (n : string) (F : expr -> expr) (es : list expr) : list expr :=
      match es with [] => [F (blank n)] | e :: es => if entry_of n e then F e :: es else e :: on_entry n F es end.
    (* the entry which counts *)
    Definition the_entry (n : string) (es : list expr) : expr := match find (entry_of n) es with Some e => e | None => blank n end.
    Definition rel (k : string) (e : expr) (d : data) : Prop := ref d = e /\ is_for k d = entry_of k e /\ Forall Q (parts d) /\ (entry_of k e = true -> ent e d).
    Lemma on_input_ok n f F es l : lookup m n = None -> Forall2 (rel n) es l -> (forall d, ent (the_entry n es) d -> gives f d F (the_entry n es)) ->
      exists l', on_input n f l = Some l' /\ map ref l' = on_entry n F es /\ Forall Q (flat_map parts l').
    Proof.
      intros Hn H. induction H as [|e d es l H1 H2 IH]; intros Hf.
      - destruct (Hf _ (blank_ent n Hn)) as (d' & G1 & G2 & G3). cbn [on_input]. rewrite G1. eexists. split; [reflexivity|]. cbn [map on_entry flat_map]. rewrite G2, app_nil_r. auto.
      - destruct H1 as (R1 & R2 & R3 & R4). cbn [on_input on_entry]. unfold the_entry in Hf. cbn [find] in Hf. rewrite R2. destruct (entry_of n e) eqn:E.
        + destruct (Hf d (R4 eq_refl)) as (d' & G1 & G2 & G3). rewrite G1. eexists. split; [reflexivity|]. cbn [map flat_map]. rewrite G2. split.
          * f_equal. clear -H2. induction H2 as [|? ? ? ? (H & _)]; cbn; [reflexivity|]. rewrite H, IHForall2. reflexivity.
          * apply Forall_app. split; [exact G3|]. clear -H2. induction H2 as [|? ? ? ? (_ & _ & H & _)]; cbn; [constructor|]. apply Forall_app. auto.
        + destruct (IH Hf) as (l' & G1 & G2 & G3). rewrite G1. eexists. split; [reflexivity|]. cbn [map flat_map]. rewrite R1, G2. split; [reflexivity|]. apply Forall_app. auto.
    Qed.
    Lemma rel_of k e d : lookup m k = None -> ent e d -> rel k e d.
    Proof. intros Hk He. split; [apply ent_ref; exact He|]. split; [apply is_for_ent; auto|]. split; [|auto]. apply same_parts; [exact HQ|]. apply (ent_sound e). exact He. Qed.
    Lemma find_rel n es l e : Forall2 (rel n) es l -> find (entry_of n) es = Some e -> exists d, find (is_for n) l = Some d /\ ent e d.
    Proof.
      induction 1 as [|a d es l (R1 & R2 & R3 & R4) H2 IH]; [discriminate|]. cbn [find]. rewrite R2. destruct (entry_of n a); [|exact IH].
      intros [= <-]. exists d. auto.
    Qed.
    Lemma on_input_rel k n f F es l l' : Forall2 (rel n) es l -> Forall2 (rel k) es l -> on_input n f l = Some l' ->
      (forall d, ent (the_entry n es) d -> gives f d F (the_entry n es)) -> (forall d d', ent (the_entry n es) d -> f d = Some d' -> is_for k d' = false) ->
      entry_of k (F (the_entry n es)) = false -> lookup m n = None -> Forall2 (rel k) (on_entry n F es) l'.
    Proof.
      intros H. revert l'. induction H as [|e d es l H1 H2 IH]; intros l' Hk Ho Hf Hi He Hn.
      - cbn [on_input] in Ho. destruct (Hf _ (blank_ent n Hn)) as (d' & G1 & G2 & G3). rewrite G1 in Ho. injection Ho as <-. cbn [on_entry]. constructor; [|constructor].
        split; [exact G2|]. change (the_entry n []) with (blank n) in *. rewrite He. split; [exact (Hi _ d' (blank_ent n Hn) G1)|]. split; [exact G3|discriminate].
      - inversion Hk as [|? ? ? ? K1 K2]; subst. destruct H1 as (R1 & R2 & R3 & R4). cbn [on_input on_entry] in *. unfold the_entry in Hf, Hi, He. cbn [find] in Hf, Hi, He.
        rewrite R2 in Ho. destruct (entry_of n e) eqn:E.
        + destruct (Hf d (R4 eq_refl)) as (d' & G1 & G2 & G3). rewrite G1 in Ho. injection Ho as <-. constructor; [|exact K2].
          split; [exact G2|]. rewrite He. split; [exact (Hi d d' (R4 eq_refl) G1)|]. split; [exact G3|discriminate].
        + destruct (on_input n f l) as [l1|] eqn:E1; [|discriminate]. injection Ho as <-. constructor; [exact K1|]. apply IH; auto.
    Qed.
  End Step.

  (* ---- dragged actions ---- *)
  Section Items.
    Context (es : list expr) (l : list data) (He : Forall2 ent es l).
    Definition listof (n : string) (h : bool) : list expr := match find (entry_of n) es with Some e => listed_in (value_in (lname h) e) | None => [] end.
    Lemma find_ent n e : lookup m n = None -> find (entry_of n) es = Some e -> exists d, find (is_for n) l = Some d /\ ent e d.
    Proof.
      intros Hn. induction He as [|a d es0 l0 H1 H2 IH]; [discriminate|]. cbn [find]. rewrite (is_for_ent n a d Hn H1). destruct (entry_of n a); [|exact (IH H2)].
      intros [= <-]. exists d. auto.
    Qed.
    Lemma item_ok n h i : lookup m n = None -> (i < List.length (listof n h))%nat ->
      (forall e v, find (entry_of n) es = Some e -> value_in (lname h) e = Some v -> exists l, v = EList l) ->
      (forall e, nth_error (listof n h) i = Some e -> good_action m e) ->
      exists d e, item_data l (n, h, i) = Some d /\ nth_error (listof n h) i = Some e /\ ref d = e /\ sound d.
    Proof.
      intros Hn Hi Hl Hg. destruct (nth_error (listof n h) i) as [a|] eqn:Ea; [|apply nth_error_None in Ea; lia].
      unfold listof in *. destruct (find (entry_of n) es) as [e|] eqn:Ef; [|cbn in Hi; lia]. destruct (find_ent n e Hn Ef) as (d & Fd & Ed).
      destruct (ent_lst h e d Ed (fun v => Hl e v eq_refl)) as (k & Ha & Hv). cbn [item_data]. rewrite Fd, Ha.
      assert (Hk : exists y, nth_error k i = Some y /\ val a y).
      { clear -Hv Ea. revert i Ea. induction Hv as [|b y L k H1 H2 IH]; intros [|i] Ea; try discriminate; cbn in Ea; cbn.
        - injection Ea as <-. eauto.
        - apply IH. exact Ea. }
      destruct Hk as (y & Hy & Hay). rewrite Hy. destruct (action_again a y (Hg a eq_refl) Hay) as (d' & A1 & A2 & A3). exists d', a. auto.
    Qed.
    Lemma items_ok g : Forall (fun x => exists d e, item_data l x = Some d /\ nth_error (listof (fst (fst x)) (snd (fst x))) (snd x) = Some e /\ ref d = e /\ sound d) g ->
      exists a, mapM (item_data l) g = Some a /\ map ref a = flat_map (at_item listof) g /\ Forall sound a.
    Proof.
      induction 1 as [|x g (d & e & I1 & I2 & I3 & I4) _ (a & A1 & A2 & A3)]; [exists []; repeat split; constructor|].
      exists (d :: a). cbn [mapM map flat_map]. rewrite I1, A1. split; [reflexivity|]. split; [|constructor; auto]. unfold at_item at 1. rewrite I2, A2, I3. reflexivity.
    Qed.
  End Items.
  Lemma arrange_for k old g e d d' : ent e d -> arrange old g d = Some d' -> is_for k d' = is_for k d.
  Proof.
    intros (its & ds & -> & -> & _). unfold arrange. destruct (mapM _ _) as [a|]; [|discriminate]. destruct (mapM _ _) as [b|]; [|discriminate]. intros [= <-].
    unfold is_for, set_actions, set_argument. cbn [arguments].
    change (map (fun x => (Some (fst x), snd x)) (put_item (list_name true) (DList b) (put_item (list_name false) (DList a) ds)))
      with (named (put_item (list_name true) (DList b) (put_item (list_name false) (DList a) ds))).
    rewrite !put_find_other by discriminate. reflexivity.
  Qed.

  (* ---- how often a variable occurs in loaded data ---- *)
  Lemma val_count x : (forall y e, y <> root -> lookup m y = Some e -> ~ In x (mentions e)) -> forall n e d, parse known n m e = Some d -> plain known e -> inner_of e ->
    (count_occ string_dec (map fst (parts d)) x <= count_occ string_dec (mentions e) x)%nat.
  Proof.
    intros Hx. induction n as [|n IH]; [discriminate|]. intros e d Hp Hpl Hin. destruct e as [y|f args|items|items|c]; cbn [parse] in Hp.
    - destruct (lookup m y) as [e'|] eqn:El; [|injection Hp as <-; cbn; lia].
      destruct (parse known n m e') as [d'|] eqn:Ep; [|discriminate]. injection Hp as <-.
      destruct (Hin y (or_introl eq_refl)) as (Hr & Hy); [congruence|]. destruct (T y e' Hr El) as (Ho & Hpe & Hna & Hne).
      assert (I := IH e' d' Ep Hpe). assert (Hi : inner_of e') by (apply (next_inner y); auto; apply reached_rank; [exact Hr|congruence]). specialize (I Hi).
      assert (Hb := parse_unbound known m _ _ _ Ep Hna). rewrite parts_inner, with_assign_bound, with_assign_inner by exact Hb.
      rewrite parts_inner, Hb, app_nil_r in I. rewrite map_app, count_occ_app.
      assert (Z : count_occ string_dec (mentions e') x = 0%nat) by (apply count_occ_not_In; apply (Hx y); auto). cbn [map fst mentions]. lia.
    - destruct (mapM _ args) as [ds|] eqn:Em; [|discriminate]. injection Hp as <-. rewrite mapM_spec in Em.
      rewrite (args_named known f args Hpl). apply plain_call in Hpl. rewrite parts_inner. cbn [bound inner mentions]. rewrite app_nil_r.
      unfold inner_of in Hin. cbn [mentions] in Hin. clear -Em Hin Hpl IH.
      induction Em as [|[[s k] a] d args ds H1 H2 IHe]; [cbn; lia|]. inv Hpl. destruct H3 as (Hs & Hpa). cbn [map combine flat_map fst snd]. rewrite map_app, !count_occ_app.
      assert (I := IH a d H1 Hpa). assert (Hi : inner_of a) by (intros z Hz; apply Hin; cbn; apply in_or_app; auto). specialize (I Hi).
      assert (J := IHe H4). assert (Hj : forall z, In z (flat_map (fun a => mentions (snd a)) args) -> lookup m z <> None -> reached m root z /\ z <> root) by (intros z Hz; apply Hin; cbn; apply in_or_app; auto).
      specialize (J Hj). lia.
    - destruct (mapM _ items) as [ds|] eqn:Em; [|discriminate]. injection Hp as <-. rewrite mapM_spec in Em. apply plain_dict in Hpl.
      rewrite parts_inner. cbn [bound inner mentions]. rewrite app_nil_r.
      unfold inner_of in Hin. cbn [mentions] in Hin. clear -Em Hin Hpl IH.
      induction Em as [|[k a] d items ds H1 H2 IHe]; [cbn; lia|]. inv Hpl. destruct H3 as (Hs & Hpa). cbn [map combine flat_map fst snd]. rewrite map_app, !count_occ_app.
      assert (I := IH a d H1 Hpa). assert (Hi : inner_of a) by (intros z Hz; apply Hin; cbn; apply in_or_app; auto). specialize (I Hi).
      assert (J := IHe H4). assert (Hj : forall z, In z (flat_map (fun a => mentions (snd a)) items) -> lookup m z <> None -> reached m root z /\ z <> root) by (intros z Hz; apply Hin; cbn; apply in_or_app; auto).
      specialize (J Hj). lia.
    - destruct (mapM _ items) as [ds|] eqn:Em; [|discriminate]. injection Hp as <-. rewrite mapM_spec in Em. apply plain_list in Hpl.
      rewrite parts_inner. cbn [bound inner mentions]. rewrite app_nil_r.
      unfold inner_of in Hin. cbn [mentions] in Hin. clear -Em Hin Hpl IH.
      induction Em as [|[k a] d items ds H1 H2 IHe]; [cbn; lia|]. inv Hpl. destruct H3 as (Hs & Hpa). cbn [map combine flat_map fst snd]. rewrite map_app, !count_occ_app.
      assert (I := IH a d H1 Hpa). assert (Hi : inner_of a) by (intros z Hz; apply Hin; cbn; apply in_or_app; auto). specialize (I Hi).
      assert (J := IHe H4). assert (Hj : forall z, In z (flat_map (fun a => mentions (snd a)) items) -> lookup m z <> None -> reached m root z /\ z <> root) by (intros z Hz; apply Hin; cbn; apply in_or_app; auto).
      specialize (J Hj). lia.
    - injection Hp as <-. cbn. lia.
  Qed.
End Parsed.

(* ---- reading the entries ---- *)
Lemma value_eset s h L its : value_in s (eset h L (EDict its)) = if String.eqb s (lname h) then Some (elist L) else value_in s (EDict its).
Proof.
  cbn [eset value_in]. destruct (String.eqb_spec s (lname h)) as [->|H]; [apply eput_same|apply eput_other; exact H].
Qed.
Lemma entry_eset k h L e : (exists its, e = EDict its) -> entry_of k (eset h L e) = entry_of k e.
Proof. intros (its & ->). unfold entry_of. rewrite value_eset. destruct h; reflexivity. Qed.
Lemma eset_direct h L e : (exists its, e = EDict its) -> exists its, eset h L e = EDict its.
Proof. intros (its & ->). eexists. reflexivity. Qed.
Lemma listed_elist L : Forall (fun e => proper e = true) L -> listed_in (Some (elist L)) = L.
Proof. intros H. cbn. rewrite map_map. cbn. rewrite map_id. induction H as [|e L H1 H2 IH]; cbn; [reflexivity|]. rewrite H1, IH. reflexivity. Qed.
Lemma listed_proper v : Forall (fun e => proper e = true) (listed_in v).
Proof. destruct v as [[]|]; cbn; try constructor. apply Forall_forall. intros e He. apply filter_In in He. apply He. Qed.

Lemma entry_blank k n : entry_of k (blank n) = String.eqb n k.
Proof. reflexivity. Qed.
Lemma find_same n F es : entry_of n (F (the_entry n es)) = true -> find (entry_of n) (on_entry n F es) = Some (F (the_entry n es)).
Proof.
  unfold the_entry. induction es as [|e es IH]; cbn [find on_entry]; intros H; [cbn [find]; rewrite H; reflexivity|].
  destruct (entry_of n e) eqn:E; cbn [find]; [rewrite H; reflexivity|]. rewrite E. apply IH. exact H.
Qed.
Lemma entry_unique k n e : entry_of n e = true -> k <> n -> entry_of k e = false.
Proof. unfold entry_of. destruct (value_in "assignment" e) as [[x| | | |]|]; try discriminate. intros H Hk. apply String.eqb_eq in H. subst x. apply String.eqb_neq. congruence. Qed.
Lemma find_other k n F es : k <> n -> entry_of k (F (the_entry n es)) = false -> find (entry_of k) (on_entry n F es) = find (entry_of k) es.
Proof.
  intros Hk. unfold the_entry. induction es as [|e es IH]; cbn [find on_entry]; intros H; [cbn [find]; rewrite H; reflexivity|].
  destruct (entry_of n e) eqn:E; cbn [find].
  - rewrite H, (entry_unique k n e E Hk). reflexivity.
  - destruct (entry_of k e); [reflexivity|]. apply IH. exact H.
Qed.
Lemma the_entry_for n es : entry_of n (the_entry n es) = true.
Proof.
  unfold the_entry. destruct (find (entry_of n) es) as [e|] eqn:E; [apply find_some in E; apply E|]. rewrite entry_blank. apply String.eqb_refl.
Qed.
Lemma the_entry_direct n es : (forall e, In e es -> exists its, e = EDict its) -> exists its, the_entry n es = EDict its.
Proof. intros H. unfold the_entry. destruct (find (entry_of n) es) as [e|] eqn:E; [apply find_some in E; apply H; apply E|]. eexists. reflexivity. Qed.
(* what is set in the entry which counts *)
Definition value_of (n s : string) (es : list expr) : option expr := match find (entry_of n) es with Some e => value_in s e | None => None end.
Lemma value_of_entry n s es : s <> "assignment" -> value_of n s es = value_in s (the_entry n es).
Proof.
  intros Hs. unfold value_of, the_entry. destruct (find (entry_of n) es); [reflexivity|].
  unfold blank. cbn [value_in entry_value]. destruct (String.eqb_spec "assignment" s); [congruence|reflexivity].
Qed.
(* entries which are not for n stay where they are *)
Lemma stays n F es i e : nth_error es i = Some e -> entry_of n e = false -> nth_error (on_entry n F es) i = Some e.
Proof.
  revert i. induction es as [|x es IH]; intros i H He; [destruct i; discriminate|]. cbn [on_entry]. destruct i as [|i]; cbn in H.
  - injection H as ->. rewrite He. reflexivity.
  - destruct (entry_of n x); cbn; auto.
Qed.

(* ---- what has been entered ---- *)
Lemma flat_nil {A B} (f : A -> list B) l : (forall x, In x l -> f x = []) -> flat_map f l = [].
Proof. induction l as [|x l IH]; cbn; intros H; [reflexivity|]. rewrite (H x), IH; auto. Qed.
Lemma prepared_parts d : parts (prepared d) = match d_assign d with Some x => [(x, prepared d)] | None => [] end.
Proof.
  rewrite parts_inner. unfold prepared at 1 2. cbn [inner bound]. rewrite flat_nil; [reflexivity|].
  intros x Hx. apply in_map_iff in Hx. destruct Hx as ([k v] & <- & _). unfold prepared_arg. cbn [snd fst]. destruct v as [e|l]; [reflexivity|].
  rewrite parts_inner. cbn [inner bound]. rewrite app_nil_r. apply flat_nil. intros p Hp. apply in_map_iff in Hp. destruct Hp as ([[i c] t] & <- & _).
  destruct c, t; reflexivity.
Qed.
Lemma prepared_body d : body (prepared d) = call d.
Proof.
  unfold prepared. rewrite body_call, map_map. unfold call. f_equal. apply map_ext. intros [k v]. unfold prepared_arg. cbn [fst snd]. f_equal.
  destruct v as [e|l]; [reflexivity|]. rewrite list_ref, map_map. cbn [value_code]. unfold elist. rewrite map_map. f_equal. apply map_ext. intros [[i c] t].
  f_equal. unfold ref. destruct c, t; reflexivity.
Qed.
Lemma prepared_ref d : ref (prepared d) = written d.
Proof. unfold ref, written. rewrite <- prepared_body. unfold prepared at 1. cbn [bound]. destruct (d_assign d); reflexivity. Qed.

(* ---- how often a variable occurs ---- *)
Section Count.
  Context (x : string).
  Definition cnt (d : data) : nat := count_occ string_dec (map fst (parts d)) x.
  Definition cnts (l : list data) : nat := count_occ string_dec (map fst (flat_map parts l)) x.
  Definition cntp {A} (l : list (A * data)) : nat := count_occ string_dec (map fst (flat_map (fun a => parts (snd a)) l)) x.
  Lemma cnts_cons d l : cnts (d :: l) = (cnt d + cnts l)%nat.
  Proof. unfold cnts, cnt. cbn [flat_map]. rewrite map_app, count_occ_app. reflexivity. Qed.
  Lemma cntp_cons {A} k d (l : list (A * data)) : cntp ((k, d) :: l) = (cnt d + cntp l)%nat.
  Proof. unfold cntp, cnt. cbn [flat_map]. rewrite map_app, count_occ_app. reflexivity. Qed.
  Lemma cnts_app l1 l2 : cnts (l1 ++ l2) = (cnts l1 + cnts l2)%nat.
  Proof. induction l1 as [|d l1 IH]; [reflexivity|]. cbn [app]. rewrite !cnts_cons, IH. lia. Qed.
  Lemma cnt_list l : cnt (DList l) = cnts l.
  Proof. unfold cnt, cnts. rewrite parts_inner. cbn [inner bound]. rewrite app_nil_r. reflexivity. Qed.
  Lemma cnt_dict ds : cnt (DDict ds None) = cntp ds.
  Proof. unfold cnt, cntp. rewrite parts_inner. cbn [inner bound]. rewrite app_nil_r. reflexivity. Qed.
  Definition own (a : option string) : nat := match a with Some y => if string_dec y x then 1 else 0 | None => 0 end.
  Lemma cnt_call f args a : cnt (DCall f args a) = (cntp args + own a)%nat.
  Proof. unfold cnt, cntp. rewrite parts_inner. cbn [inner bound]. rewrite map_app, count_occ_app. f_equal.
    destruct a as [y|]; [|reflexivity]. unfold own. cbn [map fst count_occ]. destruct (string_dec y x); reflexivity.
  Qed.
  Lemma cnt_dict_any ds a : (cntp ds <= cnt (DDict ds a))%nat.
  Proof. unfold cnt, cntp. rewrite parts_inner. cbn [inner bound]. rewrite map_app, count_occ_app. lia. Qed.

  Definition found (name : string) (args : list (option string * data)) : nat := match find_arg name args with Some v => cnt v | None => 0 end.
  Lemma found_cons name k v args : found name ((k, v) :: args) = match k with Some k => if String.eqb k name then cnt v else found name args | None => found name args end.
  Proof. unfold found. cbn. destruct k as [k|]; [destruct (String.eqb k name)|]; reflexivity. Qed.
  Lemma found_three args : (found "id" args + found "color" args + found "text" args <= cntp args)%nat.
  Proof.
    induction args as [|[k v] args IH]; [reflexivity|]. rewrite !found_cons, cntp_cons. destruct k as [k|]; [|lia].
    destruct (String.eqb_spec k "id") as [->|]; [cbn; lia|]. destruct (String.eqb_spec k "color") as [->|]; [cbn; lia|]. destruct (String.eqb_spec k "text"); lia.
  Qed.
  Lemma arguments_cnt d args : arguments d = Some args -> (cntp args <= cnt d)%nat.
  Proof.
    destruct d as [e|l|f a o|ds o|v o]; try discriminate; cbn [arguments]; intros [= <-].
    - rewrite cnt_call. lia.
    - transitivity (cntp ds); [|apply cnt_dict_any]. clear. induction ds as [|[k v] ds IH]; [reflexivity|]. cbn [map fst snd]. rewrite !cntp_cons. lia.
  Qed.
  Lemma repage_cnt d d' : repage d = Some d' -> (cnt d' <= cnt d)%nat.
  Proof.
    unfold repage. destruct (arguments d) as [args|] eqn:E; [|discriminate]. apply arguments_cnt in E. assert (H := found_three args). unfold found in H.
    destruct (find_arg "id" args) as [i|]; [|discriminate]. intros [= <-]. rewrite cnt_dict, cntp_cons.
    destruct (find_arg "color" args), (find_arg "text" args); cbn [app]; rewrite ?cntp_cons; cbn; lia.
  Qed.
  Lemma rearg_cnt f a a' : rearg f a = Some a' -> (cnt (snd a') <= cnt (snd a))%nat.
  Proof.
    unfold rearg. destruct (is_pages f (fst a)); [|intros [= <-]; cbn; lia]. destruct (snd a) as [|l| | |]; try discriminate. destruct (mapM repage l) as [l'|] eqn:E; [|discriminate].
    intros [= <-]. cbn [snd]. rewrite !cnt_list. rewrite mapM_spec in E. induction E as [|d d' l l' H1 H2 IH]; [reflexivity|]. rewrite !cnts_cons. apply repage_cnt in H1. lia.
  Qed.
  Lemma rewritten_cnt d d' : rewritten d = Some d' -> (cnt d' <= cnt d)%nat.
  Proof.
    destruct d as [|l|f args a| |]; try discriminate. cbn [rewritten]. destruct (mapM (rearg f) args) as [args'|] eqn:E; [|discriminate]. intros [= <-]. rewrite !cnt_call.
    rewrite mapM_spec in E. enough (cntp args' <= cntp args)%nat by lia. induction E as [|[k d] [k' d'] l l' H1 H2 IH]; [reflexivity|]. rewrite !cntp_cons. apply rearg_cnt in H1. cbn [snd] in H1. lia.
  Qed.
  Lemma again_cnt l l' : mapM rewritten l = Some l' -> (cnts l' <= cnts l)%nat.
  Proof. intros E. rewrite mapM_spec in E. induction E as [|d d' l l' H1 H2 IH]; [reflexivity|]. rewrite !cnts_cons. apply rewritten_cnt in H1. lia. Qed.
  Lemma remove_cnt i l y : nth_error l i = Some y -> (cnts (remove_at i l) + cnt y = cnts l)%nat.
  Proof. revert i. induction l as [|d l IH]; intros [|i] H; try discriminate; cbn in H; cbn [remove_at]; rewrite !cnts_cons; [injection H as ->; lia|]. apply IH in H. lia. Qed.
  Lemma filter_cnt g l : (cnts (filter g l) <= cnts l)%nat.
  Proof. induction l as [|d l IH]; [reflexivity|]. cbn [filter]. destruct (g d); rewrite ?cnts_cons; lia. Qed.
  Lemma set_cnt h l l0 ds : actions_of h (DDict ds None) = Some l0 -> (cnt (set_actions h l (DDict ds None)) + cnts l0 <= cnt (DDict ds None) + cnts l)%nat.
  Proof.
    unfold actions_of, set_actions, set_argument. cbn [arguments]. rewrite !cnt_dict. intros H.
    assert (G : (cntp (put_item (list_name h) (DList l) ds) + found (list_name h) (map (fun x => (Some (fst x), snd x)) ds) = cntp ds + cnts l)%nat).
    { clear. induction ds as [|[k d] ds IH]; cbn [put_item map fst snd]; [rewrite cntp_cons, cnt_list; cbn; lia|]. rewrite found_cons.
      destruct (String.eqb k (list_name h)); rewrite !cntp_cons, ?cnt_list; lia. }
    unfold found in G. destruct (find_arg _ _) as [v|]; [|injection H as <-; cbn; lia]. destruct v as [|lv| | |]; try discriminate. injection H as <-.
    rewrite cnt_list in G. assert (F := filter_cnt (fun x => negb (is_none x)) lv). lia.
  Qed.
  Lemma on_input_cnt n f l l' d0 : on_input n f l = Some l' -> find (is_for n) l = Some d0 -> exists d1, f d0 = Some d1 /\ (cnts l' + cnt d0 = cnts l + cnt d1)%nat.
  Proof.
    revert l'. induction l as [|d l IH]; intros l'; [discriminate|]. cbn [on_input find]. destruct (is_for n d).
    - destruct (f d) as [d1|] eqn:E; [|discriminate]. intros [= <-] [= <-]. exists d1. split; [exact E|]. rewrite !cnts_cons. lia.
    - destruct (on_input n f l) as [l1|]; [|discriminate]. intros [= <-] H. destruct (IH l1 eq_refl H) as (d1 & H1 & H2). exists d1. split; [exact H1|]. rewrite !cnts_cons. lia.
  Qed.
  Lemma unique_part (l : list (string * data)) a b : (count_occ string_dec (map fst l) x <= 1)%nat -> In (x, a) l -> In (x, b) l -> a = b.
  Proof.
    induction l as [|[y c] l IH]; intros Hc Ha Hb; [destruct Ha|]. cbn [map fst count_occ] in Hc.
    assert (Hin : forall z, In (x, z) l -> (1 <= count_occ string_dec (map fst l) x)%nat).
    { intros z Hz. apply (in_map fst) in Hz. apply (count_occ_In string_dec) in Hz. exact Hz. }
    destruct Ha as [[= -> ->]|Ha], Hb as [Hb|Hb].
    - congruence.
    - destruct (string_dec x x); [|congruence]. apply Hin in Hb. lia.
    - injection Hb as -> ->. destruct (string_dec x x); [|congruence]. apply Hin in Ha. lia.
    - destruct (string_dec y x); apply IH; auto; lia.
  Qed.
End Count.

(* ---- the entries after a change ---- *)
Record keeps (F : expr -> expr) (e : expr) : Prop := {
  k_for : forall k, entry_of k (F e) = entry_of k e;
  k_value : forall s, ~ In s ["assignment"; "actions"; "actionsHold"] -> value_in s (F e) = value_in s e
}.
Lemma keeps_eset h L e : (exists its, e = EDict its) -> keeps (eset h L) e.
Proof.
  intros H. split; [intros k; apply entry_eset; exact H|]. intros s Hs. destruct H as (its & ->). rewrite value_eset.
  destruct (String.eqb_spec s (lname h)) as [->|]; [|reflexivity]. destruct Hs. destruct h; cbn; auto.
Qed.
Lemma keeps_twice h L h' L' e : (exists its, e = EDict its) -> keeps (fun e => eset h L (eset h' L' e)) e.
Proof.
  intros H. destruct (keeps_eset h' L' e H) as [K1 K2]. destruct (keeps_eset h L (eset h' L' e) (eset_direct h' L' e H)) as [J1 J2]. split.
  - intros k. rewrite J1, K1. reflexivity.
  - intros s Hs. rewrite J2, K2; auto.
Qed.
Lemma value_twice s h L h' L' e : (exists its, e = EDict its) -> h <> h' ->
  value_in s (eset h L (eset h' L' e)) = if String.eqb s (lname h) then Some (elist L) else if String.eqb s (lname h') then Some (elist L') else value_in s e.
Proof. intros H Hh. destruct (eset_direct h' L' e H) as (its' & E). rewrite E, value_eset, <- E. destruct H as (its & ->). rewrite value_eset. reflexivity. Qed.
Lemma value_after k s n F es : keeps F (the_entry n es) -> value_of k s (on_entry n F es) = if String.eqb k n then value_in s (F (the_entry n es)) else value_of k s es.
Proof.
  intros [K1 K2]. unfold value_of. destruct (String.eqb_spec k n) as [->|Hk].
  - rewrite find_same; [reflexivity|]. rewrite K1. apply the_entry_for.
  - rewrite find_other; [reflexivity|exact Hk|]. rewrite K1. apply (entry_unique k n); [apply the_entry_for|exact Hk].
Qed.
Lemma other_after k s n F es : keeps F (the_entry n es) -> ~ In s ["assignment"; "actions"; "actionsHold"] -> value_of k s (on_entry n F es) = value_of k s es.
Proof.
  intros K Hs. rewrite value_after by exact K. destruct (String.eqb_spec k n) as [->|]; [|reflexivity]. rewrite (k_value F _ K s Hs).
  rewrite value_of_entry; [reflexivity|]. intros ->. apply Hs. cbn. auto.
Qed.
Lemma new_after n F es x : keeps F (the_entry n es) -> In x (on_entry n F es) -> In x es \/ entry_of n x = true.
Proof.
  intros K. assert (E : entry_of n (F (the_entry n es)) = true) by (rewrite (k_for F _ K); apply the_entry_for). clear K. unfold the_entry in E.
  induction es as [|e es IH]; cbn [on_entry find] in *.
  - intros [<-|[]]. auto.
  - destruct (entry_of n e); intros [<-|H]; cbn; auto. destruct (IH E H); auto.
Qed.
Lemma direct_after n F es : (forall e, In e es -> exists its, e = EDict its) -> (exists its, F (the_entry n es) = EDict its) -> forall e, In e (on_entry n F es) -> exists its, e = EDict its.
Proof.
  unfold the_entry. induction es as [|a es IH]; cbn [on_entry find]; intros H1 H2 e.
  - intros [<-|[]]. exact H2.
  - destruct (entry_of n a); intros [<-|H]; cbn in H1; auto.
Qed.

(* ---- reading the file ---- *)
Lemma setting_of m k s : setting m k s = value_of k s (entries m).
Proof. reflexivity. Qed.
Lemma listed_of m k h : listed m k h = listof (entries m) k h.
Proof. unfold listed, listof. rewrite setting_of. unfold value_of. destruct (find _ _); destruct h; reflexivity. Qed.

Lemma two_counts (x : string) (f : small -> list string) l s1 s2 : In s1 l -> In s2 l -> s1 <> s2 ->
  (count_occ string_dec (f s1) x + count_occ string_dec (f s2) x <= count_occ string_dec (flat_map f l) x)%nat.
Proof.
  assert (One : forall s l, In s l -> (count_occ string_dec (f s) x <= count_occ string_dec (flat_map f l) x)%nat).
  { intros s l0. induction l0 as [|a l0 IH]; intros H; [destruct H|]. cbn [flat_map]. rewrite count_occ_app. destruct H as [->|H]; [lia|]. specialize (IH H). lia. }
  induction l as [|a l IH]; intros H1 H2 Hn; [destruct H1|]. cbn [flat_map]. rewrite count_occ_app. destruct H1 as [->|H1], H2 as [->|H2].
  - congruence.
  - apply One in H2. lia.
  - apply One in H1. lia.
  - specialize (IH H1 H2 Hn). lia.
Qed.
Lemma elsewhere m x root e : simple m -> lookup m root = Some e -> count_occ string_dec (mentioned m) x = 1%nat -> In x (mentions e) ->
  (count_occ string_dec (mentions e) x <= 1)%nat /\ forall y e', y <> root -> lookup m y = Some e' -> ~ In x (mentions e').
Proof.
  intros S L C M. destruct (lookup_found m root e L) as (ts & H1 & H2).
  set (f := fun s => match s with MAssign _ e => mentions e | MOther _ => [] end). split.
  - unfold mentioned in C. fold f in C. change (mentions e) with (f (MAssign ts e)). clear -C H1. revert C. generalize (MAssign ts e) H1. intros s. generalize (smalls m). intros l Hs.
    induction l as [|a l IH]; [destruct Hs|]. cbn [flat_map]. rewrite count_occ_app. destruct Hs as [->|Hs]; intros C; [lia|].
    destruct (Nat.eq_dec (count_occ string_dec (flat_map f l) x) 1) as [E|E]; [exact (IH Hs E)|].
    assert (Z : count_occ string_dec (flat_map f l) x = 0%nat) by lia. clear -Hs Z. induction l as [|b l IH]; [destruct Hs|]. cbn [flat_map] in Z. rewrite count_occ_app in Z.
    destruct Hs as [->|Hs]; [lia|]. apply IH; auto. lia.
  - intros y e' Hy L' M'. destruct (lookup_found m y e' L') as (ts' & H1' & H2').
    assert (Hn : MAssign ts e <> MAssign ts' e').
    { intros E. injection E as -> ->. apply in_flat_map in H1. destruct H1 as (s & Hs & H1). destruct s as [a r|]; [|destruct H1]. destruct (S a r Hs) as (-> & Ht).
      destruct H1 as [H1|[]]. destruct (Ht ts' e' H1) as (t & ->). destruct H2 as [H2|[]], H2' as [H2'|[]]. congruence. }
    assert (G := two_counts x f (smalls m) _ _ H1 H1' Hn). unfold mentioned in C. fold f in C. rewrite C in G. cbn [f] in G.
    apply (count_occ_In string_dec) in M. apply (count_occ_In string_dec) in M'. lia.
Qed.
Lemma in_entries m k h x : In (EName x) (listed m k h) -> exists l, lookup m "Inputs" = Some (EList l) /\ In x (mentions (EList l)).
Proof.
  unfold listed, setting, entries. destruct (lookup m "Inputs") as [[| | |l|]|] eqn:E; try (destruct h; cbn; tauto). intros H. exists l. split; [reflexivity|].
  destruct (find (entry_of k) (map snd l)) as [e|] eqn:Ef; [|destruct h; destruct H]. apply find_some in Ef. destruct Ef as (Ef & _).
  apply in_map_iff in Ef. destruct Ef as (a & <- & Ha). cbn [mentions]. apply in_flat_map. exists a. split; [exact Ha|].
  destruct (value_in _ (snd a)) as [v|] eqn:Ev; [|destruct H]. destruct v as [| | |w|]; try destruct H. cbn [listed_in] in H. apply filter_In in H. destruct H as (H & _).
  apply in_map_iff in H. destruct H as (b & Hb & Hin). destruct (snd a) as [| |its| |]; try discriminate. cbn [value_in] in Ev. cbn [mentions].
  clear -Ev Hb Hin. induction its as [|[[k0|k0] v] its IH]; [discriminate| |]; cbn [entry_value flat_map snd] in *; apply in_or_app.
  - destruct (String.eqb k0 _); [|right; apply IH; exact Ev]. injection Ev as ->. left. cbn [mentions]. apply in_flat_map. exists b. split; [exact Hin|]. rewrite Hb. cbn. auto.
  - right. apply IH. exact Ev.
Qed.

(* ---- the whole change ---- *)
Lemma listed_value m k h : listed m k h = listed_in (value_of k (lname h) (entries m)).
Proof. destruct h; reflexivity. Qed.
Lemma listed_entry m n h : listed m n h = listed_in (value_in (lname h) (the_entry n (entries m))).
Proof. rewrite listed_value, value_of_entry; [reflexivity|]. destruct h; discriminate. Qed.
Lemma written_proper d : d_assign d <> Some "None" -> proper (written d) = true.
Proof. unfold written. destruct (d_assign d) as [x|]; [|reflexivity]. intros H. cbn. destruct (String.eqb_spec x "None"); [congruence|reflexivity]. Qed.
Lemma Forall_firstn {A} (P : A -> Prop) i l : Forall P l -> Forall P (firstn i l).
Proof. intros H. rewrite <- (firstn_skipn i l) in H. apply Forall_app in H. apply H. Qed.
Lemma Forall_skipn {A} (P : A -> Prop) i l : Forall P l -> Forall P (skipn i l).
Proof. intros H. rewrite <- (firstn_skipn i l) in H. apply Forall_app in H. apply H. Qed.
Lemma set_in h L d l0 p : actions_of h d = Some l0 -> In p (flat_map parts L) -> In p (parts (set_actions h L d)).
Proof.
  intros Ha Hp. assert (Hp' : In p (parts (DList L))) by (rewrite parts_inner; cbn [inner bound]; rewrite app_nil_r; exact Hp).
  destruct d as [|l|f args o|ds o|]; try discriminate; unfold set_actions, set_argument; rewrite parts_inner; apply in_or_app; left; cbn [inner].
  - clear -Hp'. induction args as [|[[k|] v] args IH]; cbn [put_arg flat_map]; [cbn [flat_map snd]; rewrite app_nil_r; exact Hp'| |apply in_or_app; right; exact IH].
    destruct (String.eqb k _); cbn [flat_map snd]; apply in_or_app; auto.
  - clear -Hp'. induction ds as [|[k v] ds IH]; cbn [put_item flat_map]; [cbn [flat_map snd]; rewrite app_nil_r; exact Hp'|].
    destruct (String.eqb k _); cbn [flat_map snd]; apply in_or_app; auto.
Qed.
Lemma on_input_in n f l l' : on_input n f l = Some l' -> exists d d', f d = Some d' /\ In d' l'.
Proof.
  revert l'. induction l as [|x l IH]; intros l'; cbn [on_input].
  - destruct (f _) as [d|] eqn:E; [|discriminate]. intros [= <-]. exists (DDict [("assignment", DCode (EName n))] None), d. cbn. auto.
  - destruct (is_for n x).
    + destruct (f x) as [y|] eqn:E; [|discriminate]. intros [= <-]. exists x, y. cbn. auto.
    + destruct (on_input n f l) as [l1|]; [|discriminate]. intros [= <-]. destruct (IH l1 eq_refl) as (d & d' & H1 & H2). exists d, d'. cbn. auto.
Qed.
Lemma in_parts p d l : In p (parts d) -> In d l -> In p (flat_map parts l).
Proof. intros H1 H2. apply in_flat_map. eauto. Qed.

Lemma some_eq {A} (a b : A) : Some a = Some b -> a = b.
Proof. congruence. Qed.

Section Main.
  Context (m : module) (e : edit) (Ed : editable m e) (rank : string -> nat)
          (R : forall x e y, lookup m x = Some e -> In y (mentions e) -> lookup m y <> None -> (rank y < rank x)%nat).
  Context (fuel : nat) (items : list data) (Hload : load inputs_known fuel m "Inputs" = Some (Some (DList items))).
  Let es := entries m.
  Let T := ed_tidy m e Ed.
  Let none := ed_none m e Ed.

  Lemma loaded : exists l, lookup m "Inputs" = Some (EList l) /\ parse inputs_known fuel m (EList l) = Some (DList items) /\ val m (EList l) (DList items).
  Proof.
    destruct (ed_inputs m e Ed) as (l & Hl). exists l. split; [exact Hl|]. unfold load in Hload. rewrite Hl in Hload.
    destruct (parse inputs_known fuel m (EList l)) as [d|] eqn:Ep; [|discriminate].
    assert (Hd : d = DList items). { destruct fuel; [discriminate|]. cbn [parse] in Ep. destruct (mapM _ l); [|discriminate]. injection Ep as <-. cbn in Hload. congruence. }
    subst d. split; [reflexivity|]. exists fuel. split; [exact Ep|]. destruct (T "Inputs" (EList l) (reached_root _ _) Hl) as (_ & Hp & _). split; [exact Hp|].
    apply (next_inner m rank R "Inputs"); [constructor|exact Hl|lia].
  Qed.
  Lemma ents : Forall2 (ent m) es items.
  Proof.
    destruct loaded as (l & Hl & _ & Hv). assert (He : es = map snd l) by (unfold es, entries; rewrite Hl; reflexivity).
    destruct (val_list m l (DList items) Hv) as (ds & [= <-] & Hf & _).
    assert (G : forall L D, Forall2 (val m) L D -> (forall x, In x L -> exists its, x = EDict its) -> Forall2 (ent m) L D).
    { clear. intros L D. induction 1 as [|a d L D H1 H2 IH]; intros Hd; constructor.
      - destruct (Hd a (or_introl eq_refl)) as (its & ->). destruct (val_dict m its d H1) as (ds & -> & Hp). exists its, ds. repeat split. exact Hp.
      - apply IH. intros x Hx. apply Hd. right. exact Hx. }
    rewrite He. apply G; [exact Hf|]. rewrite <- He. apply (ed_direct m e Ed).
  Qed.

  Definition Q (p : string * data) : Prop := (same_part m p /\ fst p <> "Inputs") \/ exists d x, entered e = Some d /\ d_assign d = Some x /\ p = (x, prepared d).
  Lemma HQ p : same_part m p -> fst p <> "Inputs" -> Q p.
  Proof. left. auto. Qed.
  Lemma prepared_Q d : entered e = Some d -> Forall Q (parts (prepared d)).
  Proof. intros H. rewrite prepared_parts. destruct (d_assign d) as [x|] eqn:E; [|constructor]. constructor; [|constructor]. right. eauto. Qed.
  Lemma rels k : lookup m k = None -> Forall2 (rel m Q k) es items.
  Proof.
    intros Hk. assert (G : forall L D, Forall2 (ent m) L D -> Forall2 (rel m Q k) L D); [|apply G, ents].
    intros L D. induction 1 as [|a d L D H1 H2 IH]; constructor; auto. apply (rel_of m T rank R Q HQ); auto.
  Qed.
  Lemma direct n : exists its, the_entry n es = EDict its.
  Proof. apply the_entry_direct. apply (ed_direct m e Ed). Qed.
  Lemma as_lists n h : concerns e n = true -> forall v, value_in (lname h) (the_entry n es) = Some v -> exists l, v = EList l.
  Proof.
    intros Hn v Hv. apply (ed_lists m e Ed n h v Hn). rewrite setting_of. rewrite <- Hv. change (if h then "actionsHold" else "actions") with (lname h).
    apply value_of_entry. destruct h; discriminate.
  Qed.
  Lemma proper_listed n h : Forall (fun x => proper x = true) (listed m n h).
  Proof. apply listed_proper. Qed.
  Lemma entered_proper d : entered e = Some d -> proper (written d) = true.
  Proof. intros H. apply written_proper. intros E. destruct (ed_variable m e Ed d "None" H E) as (_ & Hx & _). congruence. Qed.

  (* what is known of the entries after it *)
  Record result (items' : list data) (es' : list expr) : Prop := {
    r_change : change items e = Some items';
    r_ref : map ref items' = es';
    r_parts : Forall Q (flat_map parts items');
    r_lists : forall k h, listed_in (value_of k (lname h) es') = wanted e (listed m) k h;
    r_others : forall k s, ~ In s ["assignment"; "actions"; "actionsHold"] -> value_of k s es' = value_of k s es;
    r_stay : forall i x, nth_error es i = Some x -> (forall k, concerns e k = true -> entry_of k x = false) -> nth_error es' i = Some x;
    r_new : forall x, In x es' -> In x es \/ exists k, concerns e k = true /\ entry_of k x = true
  }.
  Lemma single n f F : concerns e n = true -> change items e = on_input n f items -> (forall d, ent m (the_entry n es) d -> gives Q f d F (the_entry n es)) ->
    keeps F (the_entry n es) -> (forall h, listed_in (value_in (lname h) (F (the_entry n es))) = wanted e (listed m) n h) ->
    (forall k h, k <> n -> wanted e (listed m) k h = listed m k h) -> exists items', result items' (on_entry n F es).
  Proof.
    intros Hn Hc Hf K Hw Ho. pose proof (ed_names m e Ed n Hn) as Hl. destruct (on_input_ok m Q n f F es items Hl (rels n Hl) Hf) as (l' & G1 & G2 & G3).
    exists l'. split.
    - rewrite Hc. exact G1.
    - exact G2.
    - exact G3.
    - intros k h. rewrite value_after by exact K. destruct (String.eqb_spec k n) as [->|Hk]; [apply Hw|]. rewrite Ho by exact Hk. rewrite listed_value. reflexivity.
    - intros k s Hs. apply other_after; assumption.
    - intros i x Hi Hx. apply stays; [exact Hi|]. apply Hx. exact Hn.
    - intros x Hx. destruct (new_after n F es x K Hx); [left; assumption|right; exists n; auto].
  Qed.

  Lemma read_one h L n h' : Forall (fun x => proper x = true) L -> listed_in (value_in (lname h') (eset h L (the_entry n es))) = if Bool.eqb h' h then L else listed m n h'.
  Proof.
    intros HL. destruct (direct n) as (its & Hi). rewrite Hi, value_eset, <- Hi. rewrite listed_entry. fold es.
    destruct h, h'; cbn [Bool.eqb lname String.eqb Ascii.eqb]; try (rewrite listed_elist by exact HL); reflexivity.
  Qed.
  Lemma read_two h L L' n h' : Forall (fun x => proper x = true) L -> Forall (fun x => proper x = true) L' ->
    listed_in (value_in (lname h') (eset h L (eset (negb h) L' (the_entry n es)))) = if Bool.eqb h' h then L else L'.
  Proof.
    intros HL HL'. rewrite value_twice by (try apply direct; destruct h; discriminate).
    assert (N1 : String.eqb (lname false) (lname true) = false) by reflexivity. assert (N2 : String.eqb (lname true) (lname false) = false) by reflexivity.
    destruct h, h'; cbn [Bool.eqb negb]; rewrite ?String.eqb_refl, ?N1, ?N2, ?String.eqb_refl, listed_elist by assumption; reflexivity.
  Qed.

  Lemma step_add n h d : e = Add n h d -> exists items', result items' (on_entry n (eset h (listed m n h ++ [written d])) es).
  Proof.
    intros E. assert (Hn : concerns e n = true) by (rewrite E; cbn; apply String.eqb_refl). assert (Hd : entered e = Some d) by (rewrite E; reflexivity).
    assert (Hg : Forall (good_action m) (listed m n h)) by (pose proof (ed_good m e Ed) as G; rewrite E in G; exact G).
    apply (single n (change_list h (fun a => a ++ [prepared d]))); auto.
    - rewrite E. reflexivity.
    - intros x Hx. rewrite listed_entry in *. rewrite <- prepared_ref. fold es.
      apply (add_ok m T rank R none Q HQ h (prepared d) _ x Hx); [apply as_lists; exact Hn|exact Hg|apply prepared_Q; exact Hd].
    - apply keeps_eset, direct.
    - intros h'. rewrite read_one by (apply Forall_app; split; [apply proper_listed|constructor; [apply entered_proper; exact Hd|constructor]]).
      rewrite E. cbn [wanted]. rewrite String.eqb_refl. cbn [andb]. destruct (Bool.eqb h' h) eqn:Eh; [|reflexivity]. apply Bool.eqb_prop in Eh. subst h'. reflexivity.
    - intros k h' Hk. rewrite E. cbn [wanted]. destruct (String.eqb_spec k n); [congruence|reflexivity].
  Qed.
  Lemma step_remove n h i : e = Remove n h i -> exists items', result items' (on_entry n (eset h (remove_at i (listed m n h))) es).
  Proof.
    intros E. assert (Hn : concerns e n = true) by (rewrite E; cbn; apply String.eqb_refl).
    assert (Hg : Forall (good_action m) (remove_at i (listed m n h))) by (pose proof (ed_good m e Ed) as G; rewrite E in G; rewrite remove_at_eq; exact G).
    apply (single n (remove_list h i)); auto.
    - rewrite E. reflexivity.
    - intros x Hx. rewrite listed_entry in *. fold es. apply (remove_ok m T rank R none Q HQ h i _ x Hx); [apply as_lists; exact Hn|exact Hg].
    - apply keeps_eset, direct.
    - intros h'. rewrite remove_at_eq. rewrite read_one by (apply Forall_app; split; [apply Forall_firstn|apply Forall_skipn]; apply proper_listed).
      rewrite E. cbn [wanted]. rewrite String.eqb_refl. cbn [andb]. destruct (Bool.eqb h' h) eqn:Eh; [|reflexivity]. apply Bool.eqb_prop in Eh. subst h'. reflexivity.
    - intros k h' Hk. rewrite E. cbn [wanted]. destruct (String.eqb_spec k n); [congruence|reflexivity].
  Qed.
  Lemma step_replace n h i d : e = Replace n h i d -> exists items', result items' (on_entry n (eset h (firstn i (listed m n h) ++ written d :: skipn (S i) (listed m n h))) es).
  Proof.
    intros E. assert (Hn : concerns e n = true) by (rewrite E; cbn; apply String.eqb_refl). assert (Hd : entered e = Some d) by (rewrite E; reflexivity).
    assert (Hg : Forall (good_action m) (remove_at i (listed m n h))) by (pose proof (ed_good m e Ed) as G; rewrite E in G; rewrite remove_at_eq; exact G).
    pose proof (ed_index m e Ed n h i d E) as Hi.
    apply (single n (replace_list h i (prepared d))); auto.
    - rewrite E. reflexivity.
    - intros x Hx. rewrite listed_entry in *. rewrite <- prepared_ref. fold es. fold es in Hg, Hi.
      assert (G := replace_ok m T rank R none Q HQ h i (prepared d) _ x Hx (as_lists n h Hn) Hg (prepared_Q d Hd)). cbv zeta in G.
      apply Nat.ltb_lt in Hi. rewrite Hi in G. exact G.
    - apply keeps_eset, direct.
    - intros h'. rewrite read_one by (apply Forall_app; split; [apply Forall_firstn, proper_listed|constructor; [apply entered_proper; exact Hd|apply Forall_skipn, proper_listed]]).
      rewrite E. cbn [wanted]. rewrite String.eqb_refl. cbn [andb]. destruct (Bool.eqb h' h) eqn:Eh; [|reflexivity]. apply Bool.eqb_prop in Eh. subst h'. reflexivity.
    - intros k h' Hk. rewrite E. cbn [wanted]. destruct (String.eqb_spec k n); [congruence|reflexivity].
  Qed.
  Lemma step_rehold n h i d : e = Rehold n h i d ->
    exists items', result items' (on_entry n (fun x => eset (negb h) (listed m n (negb h) ++ [written d]) (eset h (remove_at i (listed m n h)) x)) es).
  Proof.
    intros E. assert (Hn : concerns e n = true) by (rewrite E; cbn; apply String.eqb_refl). assert (Hd : entered e = Some d) by (rewrite E; reflexivity).
    assert (Hg : Forall (good_action m) (remove_at i (listed m n h)) /\ Forall (good_action m) (listed m n (negb h))).
    { pose proof (ed_good m e Ed) as G. rewrite E in G. cbn [rewrites] in G. rewrite app_assoc in G. apply Forall_app in G. rewrite remove_at_eq. exact G. }
    destruct Hg as (Hg & Hg').
    apply (single n (fun x => match remove_list h i x with Some y => change_list (negb h) (fun a => a ++ [prepared d]) y | None => None end)); auto.
    - rewrite E. reflexivity.
    - intros x Hx. rewrite !listed_entry. rewrite listed_entry in Hg, Hg'. rewrite <- prepared_ref. fold es. fold es in Hg, Hg'.
      apply (rehold_ok m T rank R none Q HQ h i (prepared d) _ x Hx); [intros h'; apply as_lists; exact Hn|exact Hg|exact Hg'|apply prepared_Q; exact Hd].
    - apply keeps_twice, direct.
    - intros h'. rewrite remove_at_eq. rewrite <- (Bool.negb_involutive h) at 3.
      rewrite read_two by (apply Forall_app; split; first [apply proper_listed|apply Forall_firstn, proper_listed|apply Forall_skipn, proper_listed|constructor; [apply entered_proper; exact Hd|constructor]]).
      rewrite E. cbn [wanted]. rewrite String.eqb_refl. cbn [andb]. destruct h, h'; reflexivity.
    - intros k h' Hk. rewrite E. cbn [wanted]. destruct (String.eqb_spec k n); [congruence|reflexivity].
  Qed.

  (* dragged actions *)
  Lemma item_there x : In x (items_of e) -> (forall a, In a (at_item (listed m) x) -> good_action m a) ->
    exists d a, item_data items x = Some d /\ nth_error (listof es (fst (fst x)) (snd (fst x))) (snd x) = Some a /\ ref d = a /\ sound m d.
  Proof.
    intros Hx Hg. pose proof (ed_items m e Ed) as Hv. rewrite Forall_forall in Hv. destruct (Hv x Hx) as (Hc & Hi). destruct x as [[n h] i]. cbn [fst snd] in *.
    rewrite listed_of in Hi. fold es in Hi. apply (item_ok m T rank R none es items ents n h i); auto.
    - apply (ed_names m e Ed). exact Hc.
    - intros a v Ha Hval. apply (ed_lists m e Ed n h v Hc). rewrite setting_of. unfold value_of. fold es. rewrite Ha. destruct h; exact Hval.
    - intros a Ha. apply Hg. unfold at_item. cbn [fst snd]. rewrite listed_of. fold es. rewrite Ha. cbn. auto.
  Qed.
  Lemma items_there g : (forall x, In x g -> In x (items_of e)) -> Forall (good_action m) (flat_map (at_item (listed m)) g) ->
    exists a, mapM (item_data items) g = Some a /\ map ref a = flat_map (at_item (listed m)) g /\ Forall (sound m) a.
  Proof.
    intros Hi Hg. destruct (items_ok m es items g) as (a & A1 & A2 & A3).
    - apply Forall_forall. intros x Hx. apply item_there; [apply Hi; exact Hx|]. intros y Hy. rewrite Forall_forall in Hg. apply Hg. apply in_flat_map. eauto.
    - exists a. split; [exact A1|]. split; [|exact A3]. rewrite A2. apply flat_map_ext. intros x. unfold at_item. rewrite listed_of. reflexivity.
  Qed.
  Definition shown (g : list item) (h : bool) : list expr := flat_map (at_item (listed m)) (filter (fun x => Bool.eqb (is_hold x) h) g).
  Lemma shown_proper g h : Forall (fun x => proper x = true) (shown g h).
  Proof.
    apply Forall_forall. intros a Ha. apply in_flat_map in Ha. destruct Ha as (x & _ & Ha). unfold at_item in Ha. destruct (nth_error _ _) as [b|] eqn:E; [|destruct Ha].
    destruct Ha as [->|[]]. apply nth_error_In in E. pose proof (proper_listed (fst (fst x)) (snd (fst x))) as G. rewrite Forall_forall in G. apply G. exact E.
  Qed.
  Lemma sub_good g h : Forall (good_action m) (flat_map (at_item (listed m)) g) -> Forall (good_action m) (shown g h).
  Proof.
    rewrite !Forall_forall. intros H a Ha. apply H. apply in_flat_map in Ha. destruct Ha as (x & Hx & Ha). apply filter_In in Hx. apply in_flat_map. exists x. tauto.
  Qed.
  Lemma arranged g : (forall x, In x g -> In x (items_of e)) -> Forall (good_action m) (flat_map (at_item (listed m)) g) ->
    forall n d, ent m (the_entry n es) d -> gives Q (arrange items g) d (fun x => eset true (shown g true) (eset false (shown g false) x)) (the_entry n es).
  Proof.
    intros Hi Hg n d Hd. destruct (items_there (filter (fun x => negb (is_hold x)) g)) as (a & A1 & A2 & A3).
    - intros x Hx. apply filter_In in Hx. apply Hi. apply Hx.
    - apply (sub_good g false) in Hg. unfold shown in Hg. rewrite (filter_ext _ (fun x => Bool.eqb (is_hold x) false)); [exact Hg|]. intros x. destruct (is_hold x); reflexivity.
    - destruct (items_there (filter is_hold g)) as (b & B1 & B2 & B3).
      + intros x Hx. apply filter_In in Hx. apply Hi. apply Hx.
      + apply (sub_good g true) in Hg. unfold shown in Hg. rewrite (filter_ext _ (fun x => Bool.eqb (is_hold x) true)); [exact Hg|]. intros x. destruct (is_hold x); reflexivity.
      + assert (Ea : map ref a = shown g false) by (rewrite A2; unfold shown; f_equal; apply filter_ext; intros x; destruct (is_hold x); reflexivity).
        assert (Eb : map ref b = shown g true) by (rewrite B2; unfold shown; f_equal; apply filter_ext; intros x; destruct (is_hold x); reflexivity).
        assert (G := arrange_ok m T rank R Q HQ items g a b _ d Hd A1 B1 A3 B3). rewrite Ea, Eb in G. exact G.
  Qed.
  Lemma step_sort n g : e = Sort n g -> exists items', result items' (on_entry n (fun x => eset true (shown g true) (eset false (shown g false) x)) es).
  Proof.
    intros E. assert (Hn : concerns e n = true) by (rewrite E; cbn; apply String.eqb_refl).
    assert (Hg : Forall (good_action m) (flat_map (at_item (listed m)) g)) by (pose proof (ed_good m e Ed) as G; rewrite E in G; exact G).
    apply (single n (arrange items g)); auto.
    - rewrite E. reflexivity.
    - apply arranged; [rewrite E; auto|exact Hg].
    - apply keeps_twice, direct.
    - intros h'. change false with (negb true) at 1. rewrite read_two by apply shown_proper. rewrite E. cbn [wanted]. rewrite String.eqb_refl. fold (shown g h'). destruct h'; reflexivity.
    - intros k h' Hk. rewrite E. cbn [wanted]. destruct (String.eqb_spec k n); [congruence|reflexivity].
  Qed.

  Lemma step_move n k g g' : e = Move n k g g' -> exists items' es', result items' es'.
  Proof.
    intros E. assert (Hn : concerns e n = true) by (rewrite E; cbn; rewrite String.eqb_refl; reflexivity).
    assert (Hk : concerns e k = true) by (rewrite E; cbn; rewrite String.eqb_refl, Bool.orb_true_r; reflexivity).
    assert (Hnk := ed_move m e Ed n k g g' E).
    assert (Hg : Forall (good_action m) (flat_map (at_item (listed m)) g) /\ Forall (good_action m) (flat_map (at_item (listed m)) g')).
    { pose proof (ed_good m e Ed) as G. rewrite E in G. cbn [rewrites] in G. rewrite flat_map_app in G. apply Forall_app in G. exact G. }
    destruct Hg as (Hg & Hg').
    pose proof (ed_names m e Ed n Hn) as Ln. pose proof (ed_names m e Ed k Hk) as Lk.
    set (F := fun x => eset true (shown g true) (eset false (shown g false) x)). set (F' := fun x => eset true (shown g' true) (eset false (shown g' false) x)).
    assert (Gn : forall d, ent m (the_entry n es) d -> gives Q (arrange items g) d F (the_entry n es)).
    { apply arranged; [|exact Hg]. intros x Hx. rewrite E. cbn [items_of]. apply in_or_app. auto. }
    assert (Gk : forall d, ent m (the_entry k es) d -> gives Q (arrange items g') d F' (the_entry k es)).
    { apply arranged; [|exact Hg']. intros x Hx. rewrite E. cbn [items_of]. apply in_or_app. auto. }
    assert (Kn : keeps F (the_entry n es)) by apply keeps_twice, direct. assert (Kk : keeps F' (the_entry k es)) by apply keeps_twice, direct.
    assert (Z : entry_of k (F (the_entry n es)) = false) by (rewrite (k_for F _ Kn); apply (entry_unique k n); [apply the_entry_for|congruence]).
    destruct (on_input_ok m Q n (arrange items g) F es items Ln (rels n Ln) Gn) as (l1 & G1 & G2 & G3).
    assert (R1 : Forall2 (rel m Q k) (on_entry n F es) l1).
    { apply (on_input_rel m Q k n (arrange items g) F es items l1 (rels n Ln) (rels k Lk) G1 Gn); [|exact Z|exact Ln].
      intros d d' Hd Hd'. rewrite (arrange_for m k items g _ d d' Hd Hd'). erewrite is_for_ent by eassumption. apply (entry_unique k n); [apply the_entry_for|congruence]. }
    assert (Te : the_entry k (on_entry n F es) = the_entry k es). { unfold the_entry at 1. rewrite find_other; [reflexivity|congruence|exact Z]. }
    destruct (on_input_ok m Q k (arrange items g') F' (on_entry n F es) l1 Lk R1) as (l2 & H1 & H2 & H3). { rewrite Te. exact Gk. }
    assert (Kk' : keeps F' (the_entry k (on_entry n F es))) by (rewrite Te; exact Kk).
    exists l2, (on_entry k F' (on_entry n F es)). split.
    - rewrite E. cbn [change]. rewrite G1. exact H1.
    - exact H2.
    - exact H3.
    - intros j h. rewrite value_after by exact Kk'. rewrite E. cbn [wanted]. fold (shown g h) (shown g' h). destruct (String.eqb_spec j k) as [->|Hj].
      + rewrite Te. destruct (String.eqb_spec k n); [congruence|]. unfold F'. change false with (negb true) at 1. rewrite read_two by apply shown_proper. destruct h; reflexivity.
      + rewrite value_after by exact Kn. destruct (String.eqb_spec j n) as [->|Hj'].
        * unfold F. change false with (negb true) at 1. rewrite read_two by apply shown_proper. destruct h; reflexivity.
        * rewrite listed_value. reflexivity.
    - intros j s Hs. rewrite other_after by assumption. apply other_after; assumption.
    - intros i x Hi Hx. apply stays; [|apply Hx; exact Hk]. apply stays; [exact Hi|apply Hx; exact Hn].
    - intros x Hx. apply new_after in Hx; [|exact Kk']. destruct Hx as [Hx|Hx]; [|right; exists k; auto].
      apply new_after in Hx; [|exact Kn]. destruct Hx as [Hx|Hx]; [auto|right; exists n; auto].
  Qed.
  Lemma results : exists items' es', result items' es'.
  Proof.
    assert (H : exists e', e = e') by eauto. destruct H as ([n h d|n h i|n h i d|n h i d|n g|n k g g'] & E).
    - destruct (step_add n h d E); eauto.
    - destruct (step_remove n h i E); eauto.
    - destruct (step_replace n h i d E); eauto.
    - destruct (step_rehold n h i d E); eauto.
    - destruct (step_sort n g E); eauto.
    - exact (step_move n k g g' E).
  Qed.

  (* ---- the variable which is entered ---- *)
  Lemma nth_val L l i a : Forall2 (val m) L l -> nth_error L i = Some a -> exists y, nth_error l i = Some y /\ val m a y.
  Proof.
    intros H. revert i. induction H as [|b y L l H1 H2 IH]; intros [|i] Ha; try discriminate; cbn in *; [injection Ha as <-; eauto|]. apply IH. exact Ha.
  Qed.
  Lemma val_own x z : lookup m x <> None -> val m (EName x) z -> (1 <= cnt x z)%nat.
  Proof.
    intros Hx Hz. destruct (val_name m T rank R x z Hz) as [(H & _)|(e' & d' & _ & _ & -> & _)]; [congruence|].
    unfold cnt. rewrite parts_inner, with_assign_bound, map_app, count_occ_app. cbn [map fst count_occ]. destruct (string_dec x x); [lia|congruence].
  Qed.
  Lemma prepared_cnt d x : d_assign d = Some x -> cnt x (prepared d) = 1%nat.
  Proof. intros H. unfold cnt. rewrite prepared_parts, H. cbn [map fst count_occ]. destruct (string_dec x x); [reflexivity|congruence]. Qed.
  Lemma entry_there n h i a : nth_error (listed m n h) i = Some a -> concerns e n = true ->
    exists d ds, find (is_for n) items = Some d /\ d = DDict ds None /\ exists l z, actions_of h d = Some l /\ List.length l = List.length (listed m n h) /\ nth_error l i = Some z /\ val m a z.
  Proof.
    intros Ha Hn. rewrite listed_of in *. unfold listof in *. destruct (find (entry_of n) (entries m)) as [x|] eqn:Ef; [|destruct i; discriminate].
    destruct (find_rel m Q n es items x (rels n (ed_names m e Ed n Hn)) Ef) as (d & Hd & Hx).
    assert (Tx : the_entry n es = x) by (unfold the_entry, es; rewrite Ef; reflexivity).
    destruct (ent_lst m T rank R none h x d Hx) as (l & Hl & Hv). { rewrite <- Tx. apply as_lists. exact Hn. }
    destruct (nth_val _ _ _ _ Hv Ha) as (z & Hz & Hvz). destruct Hx as (its & ds & -> & -> & _). exists (DDict ds None), ds. split; [exact Hd|]. split; [reflexivity|].
    exists l, z. split; [exact Hl|]. split; [|auto]. clear -Hv. induction Hv; cbn; congruence.
  Qed.
  Lemma occurs_once x : own_variable m e x -> (cnts x items <= 1)%nat.
  Proof.
    intros (Hc & Hn). destruct loaded as (l & Hl & Hp & Hv).
    assert (Hin : exists n h i, nth_error (listed m n h) i = Some (EName x)) by (destruct e; try contradiction; eauto).
    destruct Hin as (n & h & i & Hi). apply nth_error_In in Hi. apply in_entries in Hi. destruct Hi as (l' & Hl' & Hm). rewrite Hl in Hl'. injection Hl' as <-.
    destruct (elsewhere m x "Inputs" (EList l) (ed_simple m e Ed) Hl Hc Hm) as (H1 & H2). rewrite <- cnt_list. unfold cnt.
    destruct Hv as (k & Hk & Hpl & Hin). assert (G := val_count m T rank R x H2 k (EList l) (DList items) Hk Hpl Hin). lia.
  Qed.
  Lemma remains_once items' es' d x : result items' es' -> entered e = Some d -> d_assign d = Some x -> lookup m x <> None -> own_variable m e x -> (cnts x items' <= 1)%nat.
  Proof.
    intros Hr Hd Hx Hlx Ho. assert (Hc := occurs_once x Ho). apply r_change in Hr. destruct Ho as (_ & Ho).
    assert (H : exists e', e = e') by eauto. destruct H as ([n h d'|n h i|n h i d'|n h i d'|n g|n k g g'] & E); rewrite E in Ho; try contradiction.
    - assert (Hn : concerns e n = true) by (rewrite E; cbn; apply String.eqb_refl). rewrite E in Hd. injection Hd as ->.
      destruct (entry_there n h i _ Ho Hn) as (d0 & ds & Hf & -> & l & z & Ha & Hlen & Hz & Hv). rewrite E in Hr. cbn [change] in Hr.
      destruct (on_input_cnt x n _ _ _ _ Hr Hf) as (d1 & H1 & H2). unfold replace_list in H1. rewrite Ha in H1.
      destruct (mapM rewritten (remove_at i l)) as [l1|] eqn:E1; [|discriminate]. apply some_eq in H1; subst d1. apply (again_cnt x) in E1. apply (remove_cnt x) in Hz.
      apply (val_own x z Hlx) in Hv. match type of H2 with context [set_actions h ?L _] => assert (G := set_cnt x h L l ds Ha); assert (HL : (cnts x L <= cnts x l1 + 1)%nat) end.
      { destruct (i <? List.length l)%nat; [|lia]. rewrite cnts_app, cnts_cons, (prepared_cnt d x Hx). rewrite <- (firstn_skipn i l1) at 3. rewrite cnts_app. lia. }
      lia.
    - assert (Hn : concerns e n = true) by (rewrite E; cbn; apply String.eqb_refl). rewrite E in Hd. injection Hd as ->.
      destruct (entry_there n h i _ Ho Hn) as (d0 & ds & Hf & -> & l & z & Ha & Hlen & Hz & Hv). rewrite E in Hr. cbn [change] in Hr.
      destruct (on_input_cnt x n _ _ _ _ Hr Hf) as (d1 & H1 & H2). unfold remove_list in H1. rewrite Ha in H1.
      destruct (mapM rewritten (remove_at i l)) as [l1|] eqn:E1; [|discriminate]. apply (again_cnt x) in E1. apply (remove_cnt x) in Hz.
      apply (val_own x z Hlx) in Hv. assert (G := set_cnt x h l1 l ds Ha). unfold change_list in H1.
      destruct (actions_of (negb h) (set_actions h l1 (DDict ds None))) as [k|] eqn:E2; [|discriminate]. destruct (mapM rewritten k) as [k1|] eqn:E3; [|discriminate]. apply some_eq in H1; subst d1.
      apply (again_cnt x) in E3. unfold set_actions, set_argument in E2.
      assert (G' := set_cnt x (negb h) (k1 ++ [prepared d]) k (put_item (list_name h) (DList l1) ds) E2). rewrite cnts_app, cnts_cons, (prepared_cnt d x Hx) in G'.
      change (cnts x []) with 0%nat in G'. unfold set_actions, set_argument in G, G', H2. lia.
  Qed.
  Lemma entered_in items' es' d x : result items' es' -> entered e = Some d -> d_assign d = Some x -> In (x, prepared d) (flat_map parts items').
  Proof.
    intros Hr Hd Hx. apply r_change in Hr. assert (Hp : In (x, prepared d) (parts (prepared d))) by (rewrite prepared_parts, Hx; cbn; auto).
    assert (H : exists e', e = e') by eauto. destruct H as ([n h d'|n h i|n h i d'|n h i d'|n g|n k g g'] & E); rewrite E in Hd; try discriminate; injection Hd as ->; rewrite E in Hr; cbn [change] in Hr.
    - destruct (on_input_in _ _ _ _ Hr) as (d0 & d1 & H1 & H2). unfold change_list in H1. destruct (actions_of h d0) as [l|] eqn:Ha; [|discriminate].
      destruct (mapM rewritten l) as [l1|]; [|discriminate]. apply some_eq in H1; subst d1. eapply in_parts; [|exact H2]. eapply set_in; [exact Ha|]. eapply in_parts; [exact Hp|]. apply in_or_app. cbn. auto.
    - assert (Hn : concerns e n = true) by (rewrite E; cbn; apply String.eqb_refl). assert (Hi := ed_index m e Ed n h i d E).
      destruct (nth_error (listed m n h) i) as [a|] eqn:Ea; [|apply nth_error_None in Ea; lia].
      destruct (entry_there n h i _ Ea Hn) as (d0 & ds & Hf & -> & l & z & Ha & Hlen & Hz & Hv).
      assert (G : exists d1, replace_list h i (prepared d) (DDict ds None) = Some d1 /\ In d1 items').
      { clear -Hr Hf. revert items' Hr. induction items as [|y l0 IH]; [discriminate|]. intros l' Hr. cbn [on_input find] in *. destruct (is_for n y).
        - injection Hf as ->. destruct (replace_list _ _ _ _) as [d1|]; [|discriminate]. injection Hr as <-. exists d1. cbn. auto.
        - destruct (on_input n _ l0) as [l2|]; [|discriminate]. injection Hr as <-. destruct (IH Hf l2 eq_refl) as (d1 & H1 & H2). exists d1. cbn. auto. }
      destruct G as (d1 & H1 & H2). unfold replace_list in H1. rewrite Ha in H1. destruct (mapM rewritten (remove_at i l)) as [l1|]; [|discriminate]. apply some_eq in H1; subst d1.
      rewrite <- Hlen in Hi. apply Nat.ltb_lt in Hi. rewrite Hi in H2.
      eapply in_parts; [|exact H2]. eapply set_in; [exact Ha|]. eapply in_parts; [exact Hp|]. apply in_or_app. cbn. auto.
    - destruct (on_input_in _ _ _ _ Hr) as (d0 & d1 & H1 & H2). destruct (remove_list h i d0) as [d0'|]; [|discriminate]. unfold change_list in H1. destruct (actions_of (negb h) d0') as [l|] eqn:Ha; [|discriminate].
      destruct (mapM rewritten l) as [l1|]; [|discriminate]. apply some_eq in H1; subst d1. eapply in_parts; [|exact H2]. eapply set_in; [exact Ha|]. eapply in_parts; [exact Hp|]. apply in_or_app. cbn. auto.
  Qed.
  Lemma only_entered items' es' d x a : result items' es' -> entered e = Some d -> d_assign d = Some x -> In (x, a) (flat_map parts items') -> body a = call d.
  Proof.
    intros Hr Hd Hx Ha. assert (Hq := r_parts _ _ Hr). rewrite Forall_forall in Hq. destruct (Hq _ Ha) as [((Hl & _) & _)|(d' & x' & Hd' & Hx' & [= _ ->])].
    2:{ rewrite Hd in Hd'. injection Hd' as <-. apply prepared_body. }
    cbn [fst snd] in Hl. assert (Hlx : lookup m x <> None) by congruence. destruct (ed_variable m e Ed d x Hd Hx) as (_ & _ & [Hf|Ho]); [destruct Hf; apply lookup_assigned; exact Hlx|].
    assert (Hc := remains_once items' es' d x Hr Hd Hx Hlx Ho). rewrite (unique_part x (flat_map parts items') a (prepared d)).
    - apply prepared_body.
    - exact Hc.
    - exact Ha.
    - apply (entered_in items' es'); assumption.
  Qed.

  (* ---- saving ---- *)
  Lemma finish items' es' : result items' es' -> exists m', save "Inputs" (DList items') m = Some m' /\ changed m e m'.
  Proof.
    intros Hr. assert (Hq := r_parts _ _ Hr). rewrite Forall_forall in Hq. destruct loaded as (l & Hl & _).
    assert (Hne : no_empty (DList items')).
    { intros x v a Hin ->. destruct (Hq _ Hin) as [((_ & Hb) & _)|(d & y & _ & _ & Hy)]; [|discriminate]. apply Hb. cbn [snd]. rewrite body_val. reflexivity. }
    assert (Hc : consistent "Inputs" (DList items')).
    { split.
      - intros x a b Ha Hb. cbn [inner] in Ha, Hb. destruct (Hq _ Ha) as [((Sa & _) & _)|(d & y & Hd & Hy & Ey)].
        + destruct (Hq _ Hb) as [((Sb & _) & _)|(d & y & Hd & Hy & Ey)]; [cbn [fst snd] in *; congruence|].
          injection Ey as -> ->. rewrite prepared_body. apply (only_entered items' es' d y a); assumption.
        + injection Ey as -> ->. rewrite prepared_body. symmetry. apply (only_entered items' es' d y b); assumption.
      - intros a Ha. destruct (Hq _ Ha) as [(_ & H)|(d & y & Hd & Hy & Ey)]; [apply H; reflexivity|]. injection Ey as <- _. destruct (ed_variable m e Ed d "Inputs" Hd Hy) as (H & _). congruence. }
    destruct (proj1 (saves "Inputs" (DList items') m) Hne) as (m' & Hs). exists m'. split; [exact Hs|].
    destruct (saved "Inputs" (DList items') m m' (ed_simple m e Ed)) as (S1 & S2 & S3); auto. { congruence. }
    assert (Hes : entries m' = es').
    { unfold entries. rewrite S1, body_list. rewrite map_map. cbn [snd]. apply (r_ref _ _ Hr). }
    split.
    - intros k h. rewrite listed_value, Hes. apply (r_lists _ _ Hr).
    - intros k s Hs'. rewrite !setting_of, Hes. apply (r_others _ _ Hr). exact Hs'.
    - intros i x Hi Hx. rewrite Hes. apply (r_stay _ _ Hr); assumption.
    - intros x Hx. rewrite Hes in Hx. apply (r_new _ _ Hr). exact Hx.
    - intros y Hy Hv. destruct (in_dec string_dec y (map fst (inner (DList items')))) as [Hin|Hin].
      + apply in_map_iff in Hin. destruct Hin as ([y' a] & Ey & Hin). cbn in Ey. subst y'. rewrite (S2 y a Hin). destruct (Hq _ Hin) as [((Sa & _) & _)|(d & z & Hd & Hz & Ez)].
        * symmetry. exact Sa.
        * injection Ez as -> ->. destruct (Hv d Hd Hz).
      + apply S3; [exact Hy|]. intros a Ha. apply Hin. apply in_map_iff. exists (y, a). auto.
    - intros d x Hd Hx. rewrite (S2 x (prepared d)); [rewrite prepared_body; reflexivity|]. apply (entered_in items' es'); assumption.
  Qed.
End Main.

Theorem edited m e : editable m e -> (exists m', saved_as m e m') /\ forall m', saved_as m e m' -> changed m e m'.
Proof.
  intros Ed. destruct (ed_acyclic m e Ed) as (rank & R). split.
  - destruct (ed_inputs m e Ed) as (l & Hl). destruct (opens inputs_known m "Inputs" (EList l) (ed_acyclic m e Ed) Hl) as (n & d & Ho). specialize (Ho n (Nat.le_refl n)).
    assert (Hd : exists items, d = DList items).
    { unfold load in Ho. rewrite Hl in Ho. destruct n as [|n]; [discriminate|]. cbn [parse] in Ho. destruct (mapM _ l) as [ds|]; [|discriminate]. injection Ho as <-. cbn. eauto. }
    destruct Hd as (items & ->). destruct (results m e Ed rank R n items Ho) as (items' & es' & Hr). destruct (finish m e Ed rank R n items Ho items' es' Hr) as (m' & Hs & _).
    exists m', n, items, items'. split; [exact Ho|]. split; [apply (r_change _ _ _ _ _ Hr)|exact Hs].
  - intros m' (n & items & items' & Ho & Hc & Hs). destruct (results m e Ed rank R n items Ho) as (l' & es' & Hr).
    destruct (finish m e Ed rank R n items Ho l' es' Hr) as (m2 & Hs2 & Hch). assert (El := r_change _ _ _ _ _ Hr). rewrite Hc in El. injection El as <-. congruence.
Qed.
