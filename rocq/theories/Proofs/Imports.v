From Verif.Lib Require Import Base.
From Verif.Model Require Import Imports.
From Verif.Spec Require Import Imports.
From Coq Require Import String Permutation.
Local Open Scope list_scope.

Lemma item_ind2 (P : item -> Prop) :
  (forall i p ns, P (IImport i p ns)) -> (forall b u, P (ILine b u)) -> (forall u body, Forall P body -> P (IBlock u body)) -> forall s, P s.
Proof.
  intros Hi Hl Hb. fix IH 1. intros [i p ns|b u|u body]; [apply Hi|apply Hl|]. apply Hb.
  induction body as [|s body IHb]; constructor; [apply IH|apply IHb].
Qed.
Lemma flat_map_ext_in {A B} (f g : A -> list B) l : (forall x, In x l -> f x = g x) -> flat_map f l = flat_map g l.
Proof. induction l as [|x l IH]; intros H; cbn; [reflexivity|]. rewrite (H x), IH; auto. - intros. apply H. right. assumption. - left. reflexivity. Qed.

(* any measure of a file that is a concatenation over the statements *)
Section Measure.
  Context {B : Type} (h : item -> list B) (news : list item).
  Lemma add_list_measure (l : list item) :
    Forall (fun s => Permutation (h (add_item news s)) (h s) \/ Permutation (h (add_item news s)) (flat_map h news ++ h s)) l ->
    Permutation (flat_map h (add_list (add_item news) news l)) (flat_map h l) \/
    Permutation (flat_map h (add_list (add_item news) news l)) (flat_map h news ++ flat_map h l).
  Proof.
    induction 1 as [|s l Hs Hl IH]; [left; constructor|]. destruct s as [i p ns|b u|u body].
    - right. cbn. rewrite flat_map_app. reflexivity.
    - right. cbn. rewrite flat_map_app. reflexivity.
    - cbn [add_list]. fold (add_list (add_item news) news). destruct (has_line (IBlock u body)); cbn [flat_map].
      + destruct Hs as [Hs|Hs]; [left|right]; rewrite Hs; [reflexivity|]. rewrite app_assoc. reflexivity.
      + destruct IH as [IH|IH]; [left|right]; rewrite IH; [reflexivity|]. rewrite !app_assoc. apply Permutation_app_tail, Permutation_app_comm.
  Qed.
End Measure.

(* ---- the code is kept ---- *)
Lemma code_news news : (forall s, In s news -> code_item s = []) -> flat_map code_item news = [].
Proof. induction news as [|s l IH]; intros H; cbn; [reflexivity|]. rewrite (H s), IH; auto. - intros. apply H. right. assumption. - left. reflexivity. Qed.
Lemma added_item avail s : In s (added avail) -> exists k p n, s = IImport (true, k) p [(n, n)] /\ In (p, n) avail.
Proof.
  unfold added. rewrite in_map_iff. intros ([k [p n]] & <- & Hin). cbn. exists k, p, n. split; [reflexivity|]. apply in_combine_r in Hin. exact Hin.
Qed.
Lemma code_added avail : flat_map code_item (added avail) = [].
Proof. apply code_news. intros s H. apply added_item in H. destruct H as (k & p & n & -> & _). reflexivity. Qed.
Lemma code_add_list news l : flat_map code_item news = [] -> Forall (fun s => code_item (add_item news s) = code_item s) l ->
  flat_map code_item (add_list (add_item news) news l) = flat_map code_item l.
Proof.
  intros Hn. induction 1 as [|s l Hs Hl IH]; [reflexivity|]. destruct s as [i p ns|b u|u body].
  - cbn. rewrite flat_map_app, Hn. reflexivity.
  - cbn. rewrite flat_map_app, Hn. reflexivity.
  - cbn [add_list]. fold (add_list (add_item news) news). destruct (has_line (IBlock u body)); cbn [flat_map]; [rewrite Hs|rewrite IH]; reflexivity.
Qed.
Lemma code_add_item news s : flat_map code_item news = [] -> code_item (add_item news s) = code_item s.
Proof.
  intros Hn. induction s as [i p ns|b u|u body IH] using item_ind2; [reflexivity|reflexivity|]. cbn [add_item code_item]. rewrite code_add_list; auto.
Qed.
Lemma code_add avail f : code (add_imports avail f) = code f.
Proof. unfold code, add_imports. apply code_add_list; [apply code_added|]. apply Forall_forall. intros s _. apply code_add_item, code_added. Qed.
Lemma flat_map_flat_map {A B C} (f : A -> list B) (g : B -> list C) l : flat_map g (flat_map f l) = flat_map (fun x => flat_map g (f x)) l.
Proof. induction l as [|x l IH]; cbn; [reflexivity|]. rewrite flat_map_app, IH. reflexivity. Qed.
Lemma code_remove_item bad s : flat_map code_item (remove_item bad s) = code_item s.
Proof.
  induction s as [i p ns|b u|u body IH] using item_ind2; cbn.
  - destruct (filter _ ns); reflexivity.
  - reflexivity.
  - rewrite flat_map_flat_map. do 2 f_equal. apply flat_map_ext_in. rewrite Forall_forall in IH. exact IH.
Qed.
Lemma code_remove bad f : code (remove bad f) = code f.
Proof. unfold code, remove. rewrite flat_map_flat_map. apply flat_map_ext_in. intros s _. apply code_remove_item. Qed.

Lemma statements_kept avail f f' : to_source avail f f' -> code f' = code f.
Proof. intros (order & _ & ->). rewrite code_remove. apply code_add. Qed.

(* ---- keys: statement and bound name of every import ---- *)
Fixpoint keys_item (s : item) : list (node * string) :=
  match s with
  | IImport i _ ns => map (fun n => (i, snd n)) ns
  | ILine _ _ => []
  | IBlock _ body => flat_map keys_item body
  end.
Definition keys (f : list item) := flat_map keys_item f.
Lemma map_flat_map {A B C} (g : B -> C) (f : A -> list B) l : map g (flat_map f l) = flat_map (fun x => map g (f x)) l.
Proof. induction l as [|x l IH]; cbn; [reflexivity|]. rewrite map_app, IH. reflexivity. Qed.
Lemma occs_keys_item s : forall refd, map fst (occs_item refd s) = keys_item s.
Proof.
  induction s as [i p ns|b u|u body IH] using item_ind2; intros refd; cbn.
  - rewrite map_map. reflexivity.
  - reflexivity.
  - rewrite map_flat_map. apply flat_map_ext_in. intros s Hs. rewrite Forall_forall in IH. apply IH. exact Hs.
Qed.
Lemma occs_keys f : map fst (occs f) = keys f.
Proof. unfold occs, keys. rewrite map_flat_map. apply flat_map_ext_in. intros. apply occs_keys_item. Qed.

Lemma is_unused_in bad i x : is_unused bad i x = true <-> In (i, x) bad.
Proof.
  unfold is_unused. rewrite existsb_exists. split.
  - intros ([[a n] y] & Hin & H). cbn in H. apply andb_prop in H. destruct H as (H1 & H2). apply String.eqb_eq in H2. subst y.
    unfold node_eqb in H1. apply andb_prop in H1. destruct H1 as (H1 & H3). destruct i as [b k]. cbn in *. apply eqb_prop in H1. apply Nat.eqb_eq in H3. subst. exact Hin.
  - intros H. exists (i, x). split; [exact H|]. cbn. unfold node_eqb. rewrite eqb_reflx, Nat.eqb_refl, String.eqb_refl. reflexivity.
Qed.

Lemma imports_remove_item bad s : imports_item s = imports_item s ->
  forall t, In t (flat_map imports_item (remove_item bad s)) -> In t (imports_item s).
Proof.
  intros _. induction s as [i p ns|b u|u body IH] using item_ind2; intros t; cbn [remove_item].
  - assert (H : forall t, In t (map (fun n => (p, fst n, snd n)) (filter (fun n => negb (is_unused bad i (snd n))) ns)) -> In t (imports_item (IImport i p ns))).
    { intros t' H. apply in_map_iff in H. destruct H as (n & <- & H). apply filter_In in H. cbn. apply in_map_iff. exists n. split; [reflexivity|apply H]. }
    destruct (filter _ ns) as [|n ns'] eqn:E; [intros []|]. intros Hin. apply H. cbn [flat_map] in Hin. rewrite app_nil_r in Hin. exact Hin.
  - intros [].
  - cbn. rewrite app_nil_r, flat_map_flat_map. intros H. apply in_flat_map in H. destruct H as (s & Hs & Ht). apply in_flat_map. exists s. split; [exact Hs|].
    rewrite Forall_forall in IH. apply IH; assumption.
Qed.
Lemma imports_remove bad f t : In t (imports (remove bad f)) -> In t (imports f).
Proof.
  unfold imports, remove. rewrite flat_map_flat_map. intros H. apply in_flat_map in H. destruct H as (s & Hs & Ht). apply in_flat_map. exists s.
  split; [exact Hs|]. eapply imports_remove_item; [reflexivity|exact Ht].
Qed.
(* the names bound by the remaining imports *)
Definition bound_names (f : list item) : list string := map snd (imports f).
Lemma bound_keys_item s : map snd (imports_item s) = map snd (keys_item s).
Proof.
  induction s as [i p ns|b u|u body IH] using item_ind2; cbn.
  - rewrite !map_map. reflexivity.
  - reflexivity.
  - rewrite !map_flat_map. apply flat_map_ext_in. rewrite Forall_forall in IH. exact IH.
Qed.
Lemma bound_keys f : bound_names f = map snd (keys f).
Proof. unfold bound_names, imports, keys. rewrite !map_flat_map. apply flat_map_ext_in. intros. apply bound_keys_item. Qed.
Definition good (bad : list (node * string)) (k : node * string) : bool := negb (is_unused bad (fst k) (snd k)).
Lemma filter_flat_map {A B} (g : B -> bool) (f : A -> list B) l : filter g (flat_map f l) = flat_map (fun x => filter g (f x)) l.
Proof. induction l as [|x l IH]; cbn; [reflexivity|]. rewrite filter_app, IH. reflexivity. Qed.
Lemma filter_map_comm {A B} (g : B -> bool) (f : A -> B) l : filter g (map f l) = map f (filter (fun x => g (f x)) l).
Proof. induction l as [|x l IH]; cbn; [reflexivity|]. destruct (g (f x)); cbn; rewrite IH; reflexivity. Qed.
Lemma keys_remove_item bad s : flat_map keys_item (remove_item bad s) = filter (good bad) (keys_item s).
Proof.
  induction s as [i p ns|b u|u body IH] using item_ind2; cbn [remove_item keys_item].
  - rewrite filter_map_comm. unfold good. cbn [fst snd]. destruct (filter _ ns); cbn [flat_map keys_item map]; [reflexivity|]. rewrite app_nil_r. reflexivity.
  - reflexivity.
  - cbn. rewrite app_nil_r, flat_map_flat_map, filter_flat_map. apply flat_map_ext_in. rewrite Forall_forall in IH. exact IH.
Qed.
Lemma keys_remove bad f : keys (remove bad f) = filter (good bad) (keys f).
Proof. unfold keys, remove. rewrite flat_map_flat_map, filter_flat_map. apply flat_map_ext_in. intros. apply keys_remove_item. Qed.

(* ---- which names are removed ---- *)
Lemma mem_in x l : mem x l = true <-> In x l.
Proof.
  unfold mem. rewrite existsb_exists. split; [intros (y & Hy & E); apply String.eqb_eq in E; subst; exact Hy|]. intros H. exists x. split; [exact H|apply String.eqb_refl].
Qed.
Lemma unused_sub order : forall imp k, In k (unused imp order) -> In k (map fst order).
Proof.
  induction order as [|[[i x] r] o IH]; intros imp k H; [destruct H|]. cbn in *. destruct (negb r || mem x imp); [destruct H as [<-|H]; [left; reflexivity|]|]; right; eauto.
Qed.
Lemma kept_spec order : NoDup (map fst order) -> forall imp,
  NoDup (map snd (filter (good (unused imp order)) (map fst order))) /\
  (forall i x, In (i, x) (filter (good (unused imp order)) (map fst order)) -> ~ In x imp /\ In (i, x, true) order).
Proof.
  induction order as [|[[i x] r] o IH]; intros Hnd imp; [split; [constructor|intros i x []]|]. cbn [map fst] in *. inv Hnd.
  assert (Hf : forall bad, (forall k, In k (map fst o) -> In k bad <-> In k (unused (if negb r || mem x imp then imp else x :: imp) o)) ->
     filter (good bad) (map fst o) = filter (good (unused (if negb r || mem x imp then imp else x :: imp) o)) (map fst o)).
  { intros bad Hb. apply filter_ext_in. intros [j y] Hk. unfold good. cbn. specialize (Hb _ Hk). rewrite <- !is_unused_in in Hb.
    destruct (is_unused bad j y), (is_unused (unused _ o) j y); intuition congruence. }
  cbn [unused]. destruct (negb r || mem x imp) eqn:E.
  - cbn [filter].
    assert (Ex : good ((i, x) :: unused imp o) (i, x) = false) by (apply negb_false_iff, is_unused_in; left; reflexivity). rewrite Ex.
    rewrite (Hf ((i, x) :: unused imp o)).
    + destruct (IH H2 imp) as (IH1 & IH2). split; [exact IH1|]. intros j y Hj. destruct (IH2 j y Hj). split; [assumption|right; assumption].
    + intros k Hk. split; [|right; assumption]. intros [<-|H]; [contradiction|exact H].
  - apply orb_false_iff in E. destruct E as (Er & Em). destruct r; [|discriminate]. cbn [filter].
    assert (Ex : good (unused (x :: imp) o) (i, x) = true).
    { apply negb_true_iff, not_true_iff_false. cbn [fst snd]. rewrite is_unused_in. intros H. apply H1. eapply unused_sub; eauto. }
    rewrite Ex. cbn [map]. destruct (IH H2 (x :: imp)) as (IH1 & IH2). split.
    + constructor; [|exact IH1]. intros Hin. apply in_map_iff in Hin. destruct Hin as ([j y] & Hy & Hin). cbn in Hy. subst y. destruct (IH2 j x Hin) as (Hn & _). apply Hn. left. reflexivity.
    + intros j y [[= <- <-]|Hj].
      * split; [|left; reflexivity]. intros H. apply mem_in in H. congruence.
      * destruct (IH2 j y Hj) as (Ha & Hb). split; [intros H; apply Ha; right; exact H|right; exact Hb].
Qed.
Lemma kept_exists order : NoDup (map fst order) -> forall imp i x, In (i, x, true) order -> ~ In x imp ->
  exists j, In (j, x) (filter (good (unused imp order)) (map fst order)).
Proof.
  induction order as [|[[i0 x0] r] o IH]; intros Hnd imp i x Hin Hx; [destruct Hin|]. cbn [map fst] in *. inv Hnd.
  assert (Hkeep : forall bad j y, In (j, y) (map fst o) -> is_unused bad j y = false -> In (j, y) (filter (good bad) ((i0, x0) :: map fst o))).
  { intros bad j y Hj Hb. apply filter_In. split; [right; exact Hj|]. unfold good. cbn. rewrite Hb. reflexivity. }
  cbn [unused]. destruct (negb r || mem x0 imp) eqn:E.
  - destruct Hin as [[= -> -> ->]|Hin].
    + cbn in E. apply mem_in in E. contradiction.
    + destruct (IH H2 imp i x Hin Hx) as (j & Hj). exists j. apply filter_In in Hj. destruct Hj as (Hj & Hg). apply Hkeep; [exact Hj|].
      unfold good in Hg. cbn in Hg. apply negb_true_iff in Hg. apply not_true_iff_false. rewrite is_unused_in. intros [Hc|Hc].
      * injection Hc as <- <-. contradiction.
      * apply is_unused_in in Hc. congruence.
  - apply orb_false_iff in E. destruct E as (Er & Em). destruct r; [|discriminate].
    destruct (string_dec x x0) as [->|Hne].
    + exists i0. apply filter_In. split; [left; reflexivity|]. unfold good. cbn. apply negb_true_iff, not_true_iff_false. rewrite is_unused_in. intros H. apply H1. eapply unused_sub; eauto.
    + destruct Hin as [[= -> ->]|Hin]; [congruence|]. destruct (IH H2 (x0 :: imp) i x Hin) as (j & Hj); [intros [->|H]; congruence|].
      exists j. apply filter_In in Hj. destruct Hj as (Hj & Hg). apply Hkeep; [exact Hj|]. unfold good in Hg. cbn in Hg. apply negb_true_iff in Hg. exact Hg.
Qed.

(* ---- the keys of the file with all imports added are distinct ---- *)
Lemma add_item_measure {B} (h : item -> list B) news : (forall u body, h (IBlock u body) = flat_map h body) -> forall s,
  Permutation (h (add_item news s)) (h s) \/ Permutation (h (add_item news s)) (flat_map h news ++ h s).
Proof.
  intros Hb s. induction s as [i p ns|b u|u body IH] using item_ind2; [left; reflexivity|left; reflexivity|].
  cbn [add_item]. rewrite !Hb. apply add_list_measure. exact IH.
Qed.
Lemma add_measure {B} (h : item -> list B) avail f : (forall u body, h (IBlock u body) = flat_map h body) ->
  Permutation (flat_map h (add_imports avail f)) (flat_map h f) \/
  Permutation (flat_map h (add_imports avail f)) (flat_map h (added avail) ++ flat_map h f).
Proof. intros Hb. apply add_list_measure. apply Forall_forall. intros s _. apply add_item_measure. exact Hb. Qed.

Lemma nodup_app {A} (l1 l2 : list A) : NoDup (l1 ++ l2) <-> NoDup l1 /\ NoDup l2 /\ forall x, In x l1 -> ~ In x l2.
Proof.
  induction l1 as [|x l1 IH]; cbn.
  - split; [intros H; split; [constructor|auto]|intros (_ & H & _); exact H].
  - split.
    + intros H. inv H. apply IH in H3. destruct H3 as (Ha & Hb & Hc). split; [constructor; [intros H; apply H2; apply in_or_app; auto|exact Ha]|].
      split; [exact Hb|]. intros y [<-|Hy]; [intros H; apply H2; apply in_or_app; auto|apply Hc; exact Hy].
    + intros (Ha & Hb & Hc). inv Ha. constructor.
      * intros H. apply in_app_or in H. destruct H as [H|H]; [contradiction|]. apply (Hc x); auto.
      * apply IH. repeat split; auto.
Qed.
Lemma keys_nodes_item s k : In k (keys_item s) -> In (fst k) (nodes_item s).
Proof.
  induction s as [i p ns|b u|u body IH] using item_ind2; cbn.
  - intros H. apply in_map_iff in H. destruct H as (n & <- & _). left. reflexivity.
  - intros [].
  - intros H. apply in_flat_map in H. destruct H as (s & Hs & Hk). apply in_flat_map. exists s. split; [exact Hs|]. rewrite Forall_forall in IH. auto.
Qed.
Lemma keys_nodup_list f : Forall (fun s => NoDup (nodes_item s) -> distinct_item s -> NoDup (keys_item s)) f ->
  NoDup (flat_map nodes_item f) -> Forall distinct_item f -> NoDup (flat_map keys_item f).
Proof.
  induction 1 as [|s f Hs Hf IH]; intros Hn Hd; [constructor|]. cbn in *. apply Forall_cons_iff in Hd. destruct Hd as (Hd1 & Hd2). apply nodup_app in Hn. destruct Hn as (H1 & H2 & H5).
  apply nodup_app. split; [auto|]. split; [auto|]. intros k Hk Hk'. apply (H5 (fst k)); [apply keys_nodes_item; exact Hk|].
  apply in_flat_map in Hk'. destruct Hk' as (s' & Hs' & Hk'). apply in_flat_map. exists s'. split; [exact Hs'|apply keys_nodes_item; exact Hk'].
Qed.
Lemma keys_nodup_item s : NoDup (nodes_item s) -> distinct_item s -> NoDup (keys_item s).
Proof.
  induction s as [i p ns|b u|u body IH] using item_ind2; cbn; intros Hn Hd.
  - clear Hn. induction ns as [|n ns IHn]; [constructor|]. cbn in *. inv Hd. constructor; [|auto].
    intros H. apply in_map_iff in H. destruct H as (n' & [= Hn'] & Hin). apply H1. rewrite <- Hn'. apply in_map. exact Hin.
  - constructor.
  - apply keys_nodup_list; [exact IH|exact Hn|]. clear -Hd. induction body; constructor; cbn in Hd; tauto.
Qed.
Lemma keys_nodup f : NoDup (flat_map nodes_item f) -> Forall distinct_item f -> NoDup (keys f).
Proof. intros H1 H2. apply keys_nodup_list; auto. apply Forall_forall. intros. apply keys_nodup_item; assumption. Qed.
Lemma added_keys avail : NoDup (flat_map keys_item (added avail)) /\ forall k, In k (flat_map keys_item (added avail)) -> fst (fst k) = true.
Proof.
  split.
  - unfold added. generalize 0%nat. induction avail as [|[p n] avail IH]; intros k; cbn; [constructor|]. constructor; [|apply IH].
    intros H. apply in_flat_map in H. destruct H as (s & Hs & Hk). apply in_map_iff in Hs. destruct Hs as ([j [q o]] & <- & Hin). cbn in Hk.
    destruct Hk as [[= Hj _]|[]]. subst j. apply in_combine_l in Hin. apply in_seq in Hin. lia.
  - intros k H. apply in_flat_map in H. destruct H as (s & Hs & Hk). apply added_item in Hs. destruct Hs as (j & p & n & -> & _).
    destruct Hk as [<-|[]]. reflexivity.
Qed.
Lemma add_keys_nodup avail f : loaded f -> NoDup (keys (add_imports avail f)).
Proof.
  intros (Hn & Ho & Hd). assert (Hk := keys_nodup f Hn Hd). unfold keys.
  destruct (add_measure keys_item avail f (fun u b => eq_refl)) as [H|H]; apply Permutation_sym in H; eapply Permutation_NoDup; try exact H; [exact Hk|].
  apply nodup_app. destruct (added_keys avail) as (Ha & Hb). split; [exact Ha|]. split; [exact Hk|]. intros k H1 H2. specialize (Hb k H1).
  apply in_flat_map in H2. destruct H2 as (s & Hs & Hks). assert (Hf := Ho (fst k)). rewrite Hb in Hf. discriminate Hf.
  apply in_flat_map. exists s. split; [exact Hs|apply keys_nodes_item; exact Hks].
Qed.

Lemma add_imports_in avail f p n x : In (p, n, x) (imports (add_imports avail f)) -> In (p, n, x) (imports f) \/ (In (p, n) avail /\ x = n).
Proof.
  unfold imports. assert (Ha : In (p, n, x) (flat_map imports_item (added avail)) -> In (p, n) avail /\ x = n).
  { intros H. apply in_flat_map in H. destruct H as (s & Hs & Hk). apply added_item in Hs. destruct Hs as (j & q & o & -> & Hin). destruct Hk as [[= <- <- <-]|[]]. auto. }
  destruct (add_measure imports_item avail f (fun u b => eq_refl)) as [H|H]; intros Hin; eapply Permutation_in in Hin; try exact H; [auto|].
  apply in_app_or in Hin. destruct Hin; auto.
Qed.

Lemma order_filter (order l : list occ) bad : Permutation order l -> Permutation (filter (good bad) (map fst order)) (filter (good bad) (map fst l)).
Proof.
  intros H. apply (Permutation_map fst) in H. induction H; cbn; auto.
  - destruct (good bad x); auto.
  - destruct (good bad x), (good bad y); auto. apply perm_swap.
  - etransitivity; eauto.
Qed.

Lemma uses_mentioned_item s x : In x (uses_item s) -> In x (mentioned_item s).
Proof.
  induction s as [i p ns|b u|u body IH] using item_ind2; cbn; auto. rewrite !in_app_iff. intros [H|H]; [auto|]. right.
  apply filter_In in H. destruct H as (H & _). apply in_flat_map in H. destruct H as (s & Hs & Hx). apply in_flat_map. exists s. split; [exact Hs|]. rewrite Forall_forall in IH. auto.
Qed.
Lemma occ_used_item s : forall refd i x, In (i, x, true) (occs_item refd s) -> refd x = true \/ In x (mentioned_item s).
Proof.
  induction s as [i p ns|b u|u body IH] using item_ind2; intros refd j x; cbn.
  - intros H. apply in_map_iff in H. destruct H as (n & [= <- <- H] & _). auto.
  - intros [].
  - intros H. right. apply in_flat_map in H. destruct H as (s & Hs & H). rewrite Forall_forall in IH. destruct (IH s Hs _ _ _ H) as [H'|H'].
    + apply mem_in in H'. apply in_or_app. right. apply in_flat_map in H'. destruct H' as (s' & Hs' & H'). apply in_flat_map. exists s'. split; [exact Hs'|apply uses_mentioned_item; exact H'].
    + apply in_or_app. right. apply in_flat_map. eauto.
Qed.
Lemma occ_used f i x : In (i, x, true) (occs f) -> In x (mentioned f).
Proof.
  unfold occs. intros H. apply in_flat_map in H. destruct H as (s & Hs & H). destruct (occ_used_item s _ _ _ H) as [H'|H'].
  - apply mem_in in H'. unfold uses in H'. apply in_flat_map in H'. destruct H' as (s' & Hs' & H'). apply in_flat_map. exists s'. split; [exact Hs'|apply uses_mentioned_item; exact H'].
  - apply in_flat_map. eauto.
Qed.
Lemma mentioned_code_item s : flat_map mentioned_item (code_item s) = mentioned_item s.
Proof.
  induction s as [i p ns|b u|u body IH] using item_ind2; cbn; [reflexivity|apply app_nil_r|]. rewrite app_nil_r. f_equal. rewrite flat_map_flat_map.
  apply flat_map_ext_in. rewrite Forall_forall in IH. exact IH.
Qed.
Lemma mentioned_code f : mentioned (code f) = mentioned f.
Proof. unfold mentioned, code. rewrite flat_map_flat_map. apply flat_map_ext_in. intros. apply mentioned_code_item. Qed.

Lemma only_used avail f f' : loaded f -> to_source avail f f' ->
  (forall p n x, In (p, n, x) (imports f') -> In (p, n, x) (imports f) \/ (In (p, n) avail /\ x = n)) /\
  NoDup (map snd (imports f')) /\ (forall x, In x (map snd (imports f')) -> In x (mentioned f')).
Proof.
  intros Hl (order & Hp & ->). set (f1 := add_imports avail f) in *. set (bad := unused [] order).
  assert (Hk : NoDup (map fst order)).
  { eapply Permutation_NoDup; [apply Permutation_map, Permutation_sym; exact Hp|]. rewrite occs_keys. apply add_keys_nodup. exact Hl. }
  destruct (kept_spec order Hk []) as (H1 & H2). fold bad in H1, H2.
  assert (Hpm := order_filter order (occs f1) bad Hp). rewrite occs_keys in Hpm.
  split; [|split].
  - intros p n x H. apply imports_remove in H. apply add_imports_in in H. exact H.
  - fold (bound_names (remove bad f1)). rewrite bound_keys, keys_remove. eapply Permutation_NoDup; [apply Permutation_map; exact Hpm|exact H1].
  - intros x H. fold (bound_names (remove bad f1)) in H. rewrite bound_keys, keys_remove in H. apply in_map_iff in H. destruct H as ([i y] & <- & H). cbn.
    eapply Permutation_in in H; [|apply Permutation_sym; exact Hpm]. apply H2 in H. destruct H as (_ & H).
    eapply Permutation_in in H; [|exact Hp]. apply occ_used in H. rewrite <- mentioned_code, code_remove, mentioned_code. exact H.
Qed.

(* ---- names used on module level are imported ---- *)
Lemma added_flat avail f : starts_simple f -> add_imports avail f = added avail ++ f.
Proof. intros (s & f' & -> & Hs). unfold add_imports. destruct s as [i p ns|b u|u body]; [reflexivity|reflexivity|]. exfalso. eapply Hs. reflexivity. Qed.
Lemma top_flat f : flat_imports f -> imports f = top_imports f.
Proof.
  unfold imports, top_imports. induction f as [|s f IH]; intros H; [reflexivity|]. cbn. rewrite IH by (intros u b Hin; eapply H; right; exact Hin).
  f_equal. destruct s as [i p ns|b u|u body]; [reflexivity|reflexivity|]. cbn. apply (H u body). left. reflexivity.
Qed.
Lemma flat_keys body : imports body = [] -> keys body = [].
Proof. intros H. apply (f_equal (map snd)) in H. fold (bound_names body) in H. rewrite bound_keys in H. destruct (keys body); [reflexivity|discriminate]. Qed.
Lemma uses_added avail f : uses (added avail ++ f) = uses f.
Proof.
  unfold uses. rewrite flat_map_app. replace (flat_map uses_item (added avail)) with (@nil string); [reflexivity|].
  symmetry. assert (H : forall s, In s (added avail) -> uses_item s = []) by (intros s Hs; apply added_item in Hs; destruct Hs as (k & p & n & -> & _); reflexivity).
  induction (added avail) as [|s l IH]; [reflexivity|]. cbn. rewrite (H s), IH; auto. - intros. apply H. right. assumption. - left. reflexivity.
Qed.
Lemma top_occ f p n x : In (p, n, x) (top_imports f) -> In x (uses f) -> exists i, In (i, x, true) (occs f).
Proof.
  intros H Hu. unfold top_imports in H. apply in_flat_map in H. destruct H as (s & Hs & H). destruct s as [i q ns|b u|u body]; [|destruct H|destruct H].
  apply in_map_iff in H. destruct H as (nm & [= <- <- <-] & Hnm). exists i. unfold occs. apply in_flat_map. exists (IImport i q ns). split; [exact Hs|].
  cbn. apply in_map_iff. exists nm. split; [|exact Hnm]. do 2 f_equal. apply mem_in. exact Hu.
Qed.
Lemma flat_remove bad f : flat_imports f -> flat_imports (remove bad f).
Proof.
  intros H u body Hin. unfold remove in Hin. apply in_flat_map in Hin. destruct Hin as (s & Hs & Hin). destruct s as [i p ns|b u0|u0 body0]; cbn in Hin.
  - destruct (filter _ ns); [destruct Hin|]. destruct Hin as [Hin|[]]. discriminate.
  - destruct Hin as [Hin|[]]. discriminate.
  - destruct Hin as [[= <- <-]|[]]. assert (Hb := H _ _ Hs). destruct (imports (flat_map (remove_item bad) body0)) as [|t l] eqn:E; [reflexivity|].
    assert (Ht : In t (imports body0)) by (apply (imports_remove bad); unfold remove; rewrite E; left; reflexivity). rewrite Hb in Ht. destruct Ht.
Qed.
Lemma top_added avail p n : In (p, n) avail <-> In (p, n, n) (top_imports (added avail)).
Proof.
  split.
  - intros H. unfold top_imports. apply in_flat_map. apply In_nth_error in H. destruct H as (k & Hk).
    exists (IImport (true, k) p [(n, n)]). split; [|left; reflexivity]. unfold added. apply in_map_iff. exists (k, (p, n)). split; [reflexivity|].
    assert (Hl : (k < List.length avail)%nat) by (apply nth_error_Some; congruence).
    apply nth_error_In with (n := k). clear -Hk Hl. assert (G : forall (l : list (string * string)) a k y, nth_error l k = Some y -> nth_error (combine (seq a (List.length l)) l) k = Some ((a + k)%nat, y)).
    { induction l as [|z l IH]; intros a [|j] y H; cbn in *; try discriminate; [injection H as <-; rewrite Nat.add_0_r; reflexivity|]. rewrite (IH (S a) j y H). do 2 f_equal. lia. }
    apply (G avail 0%nat k (p, n) Hk).
  - intros H. unfold top_imports in H. apply in_flat_map in H. destruct H as (s & Hs & H). apply added_item in Hs. destruct Hs as (k & q & o & -> & Hin).
    destruct H as [[= <- <-]|[]]. exact Hin.
Qed.
Lemma top_app f g : top_imports (f ++ g) = top_imports f ++ top_imports g.
Proof. apply flat_map_app. Qed.
Lemma added_flat_imports avail f : flat_imports f -> flat_imports (added avail ++ f).
Proof. intros H u b Hin. apply in_app_or in Hin. destruct Hin as [Hin|Hin]; [apply added_item in Hin; destruct Hin as (? & ? & ? & Hx & _); discriminate|eapply H; eauto]. Qed.

Lemma imported avail f f' x : loaded f -> starts_simple f -> flat_imports f -> to_source avail f f' ->
  In x (uses f) -> (exists p n, candidate avail f p n x) -> exists p n, In (p, n, x) (top_imports f') /\ candidate avail f p n x.
Proof.
  intros Hl Hst Hfl (order & Hp & ->) Hu (p & n & Hc). rewrite (added_flat avail f Hst) in *. set (f1 := added avail ++ f) in *. set (bad := unused [] order).
  assert (Hk : NoDup (map fst order)).
  { eapply Permutation_NoDup; [apply Permutation_map, Permutation_sym; exact Hp|]. rewrite occs_keys. unfold f1. rewrite <- (added_flat avail f Hst). apply add_keys_nodup. exact Hl. }
  assert (Ht : In (p, n, x) (top_imports f1)).
  { unfold f1. rewrite top_app. apply in_or_app. destruct Hc as [Hc|(Hc & ->)]; [right; exact Hc|left; apply top_added; exact Hc]. }
  destruct (top_occ f1 p n x Ht) as (i & Hi); [unfold f1; rewrite uses_added; exact Hu|].
  eapply Permutation_in in Hi; [|apply Permutation_sym; exact Hp].
  destruct (kept_exists order Hk [] i x Hi (fun H => H)) as (j & Hj). fold bad in Hj.
  eapply Permutation_in in Hj; [|apply order_filter; exact Hp]. rewrite occs_keys, <- keys_remove in Hj.
  assert (Hx : In x (bound_names (remove bad f1))) by (rewrite bound_keys; apply in_map_iff; exists (j, x); auto).
  assert (Hfl1 : flat_imports f1) by (apply added_flat_imports; exact Hfl).
  unfold bound_names in Hx. apply in_map_iff in Hx. destruct Hx as ([[p' n'] x'] & Hx' & Hin). cbn in Hx'. subst x'.
  exists p', n'. split; [rewrite <- top_flat by (apply flat_remove; exact Hfl1); exact Hin|]. apply imports_remove in Hin. rewrite top_flat in Hin by exact Hfl1.
  unfold f1 in Hin. rewrite top_app in Hin. apply in_app_or in Hin. destruct Hin as [Hin|Hin]; [right|left; exact Hin].
  rewrite <- top_flat in Hin.
  - assert (Hin' := Hin). unfold imports in Hin'. apply in_flat_map in Hin'. destruct Hin' as (s & Hs & Hk'). apply added_item in Hs. destruct Hs as (k & q & o & -> & Hav). destruct Hk' as [[= <- <- <-]|[]]. auto.
  - intros u b Hb. apply added_item in Hb. destruct Hb as (? & ? & ? & Hq & _). discriminate.
Qed.
Lemma imported_from avail f f' x p n : loaded f -> starts_simple f -> flat_imports f -> to_source avail f f' -> In x (uses f) ->
  candidate avail f p n x -> (forall p' n', candidate avail f p' n' x -> p' = p /\ n' = n) -> In (p, n, x) (top_imports f').
Proof.
  intros Hl Hs Hf Ht Hu Hc Ha. destruct (imported avail f f' x Hl Hs Hf Ht Hu (ex_intro _ p (ex_intro _ n Hc))) as (p' & n' & Hi & Hc').
  destruct (Ha _ _ Hc') as (-> & ->). exact Hi.
Qed.
Lemma saved_exists avail f : exists f', to_source avail f f'.
Proof. eexists. eexists. split; [apply Permutation_refl|reflexivity]. Qed.

Lemma refers_uses x s : refers x s -> In x (uses_item s).
Proof.
  induction 1 as [b u H|u body H|u body s Hs _ IH Hn]; cbn.
  - exact H.
  - apply in_or_app. left. exact H.
  - apply in_or_app. right. apply filter_In. split; [apply in_flat_map; exists s; auto|]. destruct (mem x (binds body)) eqn:E; [|reflexivity].
    exfalso. apply mem_in in E. unfold binds in E. apply in_flat_map in E. destruct E as (t & Ht & E). apply (Hn t Ht). destruct t as [i q ns|b u'|u' b]; cbn in *.
    + apply in_map_iff in E. destruct E as ((n, x') & E1 & E2). cbn in E1. subst x'. exists n. exact E2.
    + exact E.
    + exact E.
Qed.
Lemma needs_uses f x : needs f x -> In x (uses f).
Proof. intros (s & Hs & H). apply in_flat_map. exists s. split; [exact Hs|apply refers_uses; exact H]. Qed.
