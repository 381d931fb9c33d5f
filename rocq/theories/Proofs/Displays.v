(* Proofs about the display editor. *)
From Coq Require Import String Ascii QArith Qround Permutation.
From Coq Require Import DecimalString Decimal DecimalNat FinFun.
From Verif.Lib Require Import Base.
From Verif.Model Require Import Displays.
From Verif.Spec Require Import Displays.
Open Scope string_scope.
Open Scope Z_scope.
Local Open Scope list_scope.

Lemma node_ind' (P : node -> Prop) : (forall id i, P (N id i None)) -> (forall id i l, Forall P l -> P (N id i (Some l))) -> forall n, P n.
Proof.
  intros H0 H1. fix F 1. intros [id i [l|]]; [|apply H0]. apply H1. induction l as [|x l IH]; constructor; [apply F|exact IH].
Qed.

(* The elements with their data, and whether there is a list of children *)
Definition row := (nat * info * bool)%type.
Definition r_id (r : row) : nat := fst (fst r).
Definition r_info (r : row) : info := snd (fst r).
Definition some {A} (o : option A) : bool := match o with Some _ => true | None => false end.
Fixpoint view (n : node) : list row := match n with N id i cs => (id, i, some cs) :: match cs with Some l => flat_map view l | None => [] end end.

Lemma flatten_view n : map (fun m => match m with N id i cs => (id, i, some cs) end) (flatten n) = view n.
Proof.
  induction n as [id i|id i l IH] using node_ind'; [reflexivity|]. cbn [flatten view map]. f_equal. clear id i. induction IH as [|x l H _ IH]; [reflexivity|]. cbn [flat_map]. rewrite map_app, H, IH. reflexivity.
Qed.
Lemma ids_view n : ids n = map r_id (view n).
Proof.
  induction n as [id i|id i l IH] using node_ind'; [reflexivity|]. cbn [ids view map]. f_equal. clear id i. induction IH as [|x l H _ IH]; [reflexivity|]. cbn [flat_map]. rewrite map_app, H, IH. reflexivity.
Qed.
Lemma flatten_ids n : map n_id (flatten n) = map r_id (view n).
Proof. rewrite <- flatten_view, map_map. apply map_ext. intros [id i cs]. reflexivity. Qed.
Lemma in_flatten m n : In m (flatten n) <-> part m n.
Proof.
  split.
  - revert m. induction n as [id i|id i l IH] using node_ind'; intros m; cbn [flatten].
    + intros [<-|[]]. constructor.
    + intros [<-|H]; [constructor|]. apply in_flat_map in H. destruct H as [x [Hx H]]. rewrite Forall_forall in IH. apply (part_in m id i l x Hx), (IH x Hx), H.
  - induction 1 as [|id i l x Hx _ IH]; [destruct m as [id i [l|]]; left; reflexivity|]. right. apply in_flat_map. exists x. auto.
Qed.
Lemma part_view id i cs n : part (N id i cs) n -> In (id, i, some cs) (view n).
Proof. intros H. apply in_flatten in H. rewrite <- flatten_view. apply (in_map (fun m => match m with N id i cs => (id, i, some cs) end)) in H. exact H. Qed.
Lemma view_part r n : In r (view n) -> exists m, part m n /\ n_id m = r_id r /\ n_info m = r_info r /\ (snd r = false -> m = N (r_id r) (r_info r) None).
Proof.
  rewrite <- flatten_view. intros H. apply in_map_iff in H. destruct H as [[id i cs] [<- H]]. exists (N id i cs). split; [apply in_flatten, H|]. split; [reflexivity|]. split; [reflexivity|]. cbn [snd]. destruct cs; [discriminate|reflexivity].
Qed.

(* Exchanging elements *)
Lemma exchanged_view m m' t t' : exchanged m m' t t' -> exists A B, view t = A ++ view m ++ B /\ view t' = A ++ view m' ++ B.
Proof.
  induction 1 as [|id i a x x' b _ [A [B [E E']]]].
  - exists [], []. cbn. rewrite !app_nil_r. auto.
  - exists ((id, i, true) :: flat_map view a ++ A), (B ++ flat_map view b). cbn [view some]. rewrite !flat_map_app. cbn [flat_map]. rewrite E, E'. cbn [app]. rewrite <- !app_assoc. auto.
Qed.
Lemma replaced_view l l' t t' : replaced l l' t t' -> exists A B, view t = A ++ flat_map view l ++ B /\ view t' = A ++ flat_map view l' ++ B /\ A <> [].
Proof.
  induction 1 as [id i|id i a x x' b _ [A [B [E [E' N]]]]].
  - exists [(id, i, true)], []. cbn. rewrite !app_nil_r. split; [|split]; [reflexivity|reflexivity|discriminate].
  - exists ((id, i, true) :: flat_map view a ++ A), (B ++ flat_map view b). cbn [view some]. rewrite !flat_map_app. cbn [flat_map]. rewrite E, E'. cbn [app]. rewrite <- !app_assoc. split; [|split]; [reflexivity|reflexivity|discriminate].
Qed.
Lemma exchanged_root m m' t t' : exchanged m m' t t' -> n_id m' = n_id m -> n_id t' = n_id t.
Proof. destruct 1; [auto|reflexivity]. Qed.

Lemma in_ids u n : In u (ids n) <-> exists m, part m n /\ n_id m = u.
Proof.
  rewrite ids_view, <- flatten_ids, in_map_iff. split; intros [m [A B]]; exists m; [split; [apply in_flatten, B|exact A]|split; [exact B|apply in_flatten, A]].
Qed.
Lemma change_out u f n : ~ In u (ids n) -> change u f n = n.
Proof.
  induction n as [id i|id i l IH] using node_ind'; cbn [ids change]; intros H.
  - destruct (Nat.eqb_spec id u); [destruct H; left; assumption|reflexivity].
  - destruct (Nat.eqb_spec id u) as [E|E]; [destruct H; left; assumption|]. cbn [option_map]. do 2 f_equal. rewrite <- (map_id l) at 2. apply map_ext_in. intros x Hx. rewrite Forall_forall in IH. apply (IH x Hx). intros W. apply H. right. apply in_flat_map. exists x. auto.
Qed.
Lemma siblings_out u f n : ~ In u (ids n) -> siblings u f n = n.
Proof.
  induction n as [id i|id i l IH] using node_ind'; cbn [ids siblings]; intros H; [reflexivity|]. cbn [option_map]. do 2 f_equal. destruct (existsb _ l) eqn:E.
  - apply existsb_exists in E. destruct E as [x [Hx E]]. apply Nat.eqb_eq in E. destruct H. right. apply in_flat_map. exists x. split; [exact Hx|]. subst u. destruct x. left. reflexivity.
  - rewrite <- (map_id l) at 2. apply map_ext_in. intros x Hx. rewrite Forall_forall in IH. apply (IH x Hx). intros W. apply H. right. apply in_flat_map. exists x. auto.
Qed.
Lemma NoDup_app_remove_l {A} (a b : list A) : NoDup (a ++ b) -> NoDup b.
Proof. induction a as [|x a IH]; intros H; [exact H|]. cbn [app] in H. apply NoDup_cons_iff in H. apply IH, H. Qed.
Lemma NoDup_app_remove_r {A} (a b : list A) : NoDup (a ++ b) -> NoDup a.
Proof. induction a as [|x a IH]; intros H; [constructor|]. cbn [app] in H. apply NoDup_cons_iff in H. constructor; [|apply IH, H]. intros W. apply H, in_or_app. left. exact W. Qed.
Lemma nodup_split {A} (a b c : list A) x : NoDup (a ++ b ++ c) -> In x b -> ~ In x a /\ ~ In x c.
Proof.
  intros N H. split.
  - intros W. induction a as [|y a IH]; [destruct W|]. cbn [app] in N. apply NoDup_cons_iff in N. destruct N as [N1 N2]. destruct W as [->|W]; [|auto]. apply N1, in_or_app. right. apply in_or_app. left. exact H.
  - intros W. apply NoDup_app_remove_l in N. induction b as [|y b IH]; [destruct H|]. cbn [app] in N. apply NoDup_cons_iff in N. destruct N as [N1 N2]. destruct H as [->|H]; [|auto]. apply N1, in_or_app. right. exact W.
Qed.
Lemma out_list u l : ~ In u (flat_map ids l) -> forall x, In x l -> ~ In u (ids x).
Proof. intros H x Hx W. apply H, in_flat_map. exists x. auto. Qed.
Lemma map_change_out u f l : ~ In u (flat_map ids l) -> map (change u f) l = l.
Proof. intros H. rewrite <- (map_id l) at 2. apply map_ext_in. intros x Hx. apply change_out, (out_list u l H x Hx). Qed.
Lemma map_siblings_out u f l : ~ In u (flat_map ids l) -> map (siblings u f) l = l.
Proof. intros H. rewrite <- (map_id l) at 2. apply map_ext_in. intros x Hx. apply siblings_out, (out_list u l H x Hx). Qed.
Lemma part_ids m n : part m n -> In (n_id m) (ids n).
Proof. intros H. apply in_ids. exists m. auto. Qed.
Lemma root_ids n : In (n_id n) (ids n).
Proof. apply part_ids. constructor. Qed.

Lemma change_exchanged f m t : NoDup (ids t) -> part m t -> exchanged m (f m) t (change (n_id m) f t).
Proof.
  intros N H. revert N. induction H as [|id i l x Hx H IH]; intros N.
  - destruct m as [id i cs]. cbn [change n_id]. rewrite Nat.eqb_refl. constructor.
  - cbn [ids] in N. apply NoDup_cons_iff in N. destruct N as [N1 N2]. cbn [change].
    assert (In (n_id m) (ids x)) as P by apply part_ids, H.
    destruct (Nat.eqb_spec id (n_id m)) as [E|E]; [destruct N1; rewrite E; apply in_flat_map; exists x; auto|]. clear E.
    apply in_split in Hx. destruct Hx as [a [b ->]]. rewrite flat_map_app in N2. cbn [flat_map] in N2. destruct (nodup_split _ _ _ _ N2 P) as [Na Nb]. cbn [option_map]. rewrite map_app. cbn [map]. rewrite (map_change_out _ _ a Na), (map_change_out _ _ b Nb). constructor. apply IH. apply NoDup_app_remove_l, NoDup_app_remove_r in N2. exact N2.
Qed.
Lemma siblings_replaced f m t : NoDup (ids t) -> part m t -> n_id m <> n_id t -> exists a b, replaced (a ++ m :: b) (f (a ++ m :: b)) t (siblings (n_id m) f t) /\ NoDup (map n_id (a ++ m :: b)).
Proof.
  intros N H. revert N. induction H as [|id i l x Hx H IH]; intros N Q; [congruence|].
  cbn [ids] in N. apply NoDup_cons_iff in N. destruct N as [N1 N2]. cbn [n_id] in Q. cbn [siblings option_map].
  assert (In (n_id m) (ids x)) as P by apply part_ids, H.
  apply in_split in Hx. destruct Hx as [a [b ->]]. pose proof N2 as N2'. rewrite flat_map_app in N2. cbn [flat_map] in N2. destruct (nodup_split _ _ _ _ N2 P) as [Na Nb]. destruct (Nat.eq_dec (n_id x) (n_id m)) as [E|E].
  - assert (x = m) as ->.
    { destruct H as [|id' i' l' y Hy H]; [reflexivity|]. exfalso. cbn [n_id] in E. subst id'. apply NoDup_app_remove_l, NoDup_app_remove_r in N2. cbn [ids] in N2. apply NoDup_cons_iff in N2. destruct N2 as [W _]. apply W, in_flat_map. exists y. split; [exact Hy|apply part_ids, H]. }
    replace (existsb (fun m0 => Nat.eqb (n_id m0) (n_id m)) (a ++ m :: b)) with true by (symmetry; apply existsb_exists; exists m; split; [apply in_or_app; right; left; reflexivity|apply Nat.eqb_refl]).
    exists a, b. split; [constructor|]. clear - N2'. induction (a ++ m :: b) as [|y l IH]; [constructor|]. cbn [flat_map map] in *. constructor.
    + intros W. apply in_map_iff in W. destruct W as [z [W Hz]]. apply (nodup_split [] (ids y) (flat_map ids l) (n_id y) N2' (root_ids y)). apply in_flat_map. exists z. split; [exact Hz|]. rewrite <- W. apply root_ids.
    + apply IH. apply NoDup_app_remove_l in N2'. exact N2'.
  - replace (existsb (fun m0 => Nat.eqb (n_id m0) (n_id m)) (a ++ x :: b)) with false.
    2:{ symmetry. apply not_true_is_false. intros W. apply existsb_exists in W. destruct W as [y [Hy W]]. apply Nat.eqb_eq in W. apply in_app_or in Hy. destruct Hy as [Hy|[Hy|Hy]]; [|congruence|].
        - apply Na, in_flat_map. exists y. split; [exact Hy|]. rewrite <- W. apply root_ids.
        - apply Nb, in_flat_map. exists y. split; [exact Hy|]. rewrite <- W. apply root_ids. }
    rewrite map_app. cbn [map]. rewrite (map_siblings_out _ _ a Na), (map_siblings_out _ _ b Nb). apply NoDup_app_remove_l, NoDup_app_remove_r in N2. destruct (IH N2 (fun W => E (eq_sym W))) as [a' [b' [R D]]]. exists a', b'. split; [constructor; exact R|exact D].
Qed.
Lemma siblings_root f t : NoDup (ids t) -> siblings (n_id t) f t = t.
Proof.
  destruct t as [id i [l|]]; intros N; [|reflexivity]. cbn [siblings n_id option_map]. cbn [ids] in N. apply NoDup_cons_iff in N. destruct N as [N _]. do 2 f_equal.
  replace (existsb (fun m => Nat.eqb (n_id m) id) l) with false; [apply map_siblings_out, N|]. symmetry. apply not_true_is_false. intros W. apply existsb_exists in W. destruct W as [x [Hx W]]. apply Nat.eqb_eq in W. apply N, in_flat_map. exists x. split; [exact Hx|]. rewrite <- W. apply root_ids.
Qed.

(* The changes of lists *)
Lemma index_at a m b : ~ In (n_id m) (map n_id a) -> child_index (n_id m) (a ++ m :: b) = length a.
Proof.
  induction a as [|x a IH]; intros H; cbn [app child_index]; [rewrite Nat.eqb_refl; reflexivity|]. destruct (Nat.eqb_spec (n_id x) (n_id m)) as [E|E]; [destruct H; left; exact E|]. cbn [length]. f_equal. apply IH. intros W. apply H. right. exact W.
Qed.
Lemma put_at a m x b : put (length a) m (a ++ x :: b) = a ++ m :: b.
Proof. induction a as [|y a IH]; [reflexivity|]. cbn [length app put]. f_equal. exact IH. Qed.
Lemma before_out a m b : NoDup (map n_id (a ++ m :: b)) -> ~ In (n_id m) (map n_id a) /\ ~ In (n_id m) (map n_id b).
Proof. intros N. rewrite map_app in N. cbn [map] in N. apply (nodup_split _ [n_id m] _ _ N). left. reflexivity. Qed.
Lemma move_up_last a m : ~ In (n_id m) (map n_id a) -> move_up (n_id m) (a ++ [m]) = a ++ [m].
Proof. intros H. unfold move_up. rewrite (index_at a m [] H), app_length. cbn [length]. replace (length a + 1 - 1 <=? length a)%nat with true by (symmetry; apply Nat.leb_le; lia). reflexivity. Qed.
Lemma move_up_next a m x b : ~ In (n_id m) (map n_id a) -> move_up (n_id m) (a ++ m :: x :: b) = a ++ x :: m :: b.
Proof.
  intros H. unfold move_up. rewrite (index_at a m _ H), app_length. cbn [length]. replace (length a + S (S (length b)) - 1 <=? length a)%nat with false by (symmetry; apply Nat.leb_gt; lia).
  assert (nth_error (a ++ m :: x :: b) (length a) = Some m) as -> by (rewrite nth_error_app2, Nat.sub_diag by lia; reflexivity).
  assert (nth_error (a ++ m :: x :: b) (S (length a)) = Some x) as -> by (rewrite nth_error_app2 by lia; replace (S (length a) - length a)%nat with 1%nat by lia; reflexivity).
  rewrite put_at. replace (a ++ x :: x :: b) with ((a ++ [x]) ++ x :: b) by (rewrite <- app_assoc; reflexivity). replace (S (length a)) with (length (a ++ [x])) by (rewrite app_length; cbn; lia). rewrite put_at, <- app_assoc. reflexivity.
Qed.
Lemma move_down_first m b : move_down (n_id m) (m :: b) = m :: b.
Proof. unfold move_down. cbn [child_index]. rewrite Nat.eqb_refl. reflexivity. Qed.
Lemma move_down_prev a x m b : ~ In (n_id m) (map n_id (a ++ [x])) -> move_down (n_id m) (a ++ x :: m :: b) = a ++ m :: x :: b.
Proof.
  intros H. unfold move_down. replace (a ++ x :: m :: b) with ((a ++ [x]) ++ m :: b) by (rewrite <- app_assoc; reflexivity). rewrite (index_at _ m _ H). rewrite app_length. cbn [length]. replace (length a + 1)%nat with (S (length a)) by lia. cbv zeta iota.
  assert (nth_error ((a ++ [x]) ++ m :: b) (S (length a)) = Some m) as -> by (rewrite nth_error_app2 by (rewrite app_length; cbn; lia); rewrite app_length; cbn [length]; replace (S (length a) - (length a + 1))%nat with 0%nat by lia; reflexivity).
  rewrite <- app_assoc. cbn [app]. assert (nth_error (a ++ x :: m :: b) (length a) = Some x) as -> by (rewrite nth_error_app2, Nat.sub_diag by lia; reflexivity).
  replace (a ++ x :: m :: b) with ((a ++ [x]) ++ m :: b) by (rewrite <- app_assoc; reflexivity). replace (S (length a)) with (length (a ++ [x])) by (rewrite app_length; cbn; lia). rewrite put_at, <- app_assoc. cbn [app]. rewrite put_at. reflexivity.
Qed.
Lemma sort_out u l : ~ In u (map n_id l) -> sort u l = l.
Proof.
  induction l as [|x l IH]; intros H; [reflexivity|]. cbn [sort map In] in *. rewrite IH by tauto. destruct l as [|y l]; [reflexivity|]. cbn [insert]. unfold compare. destruct (Nat.eqb_spec (n_id x) u); [tauto|]. destruct (Nat.eqb_spec (n_id y) u); reflexivity.
Qed.
Lemma insert_last m l : ~ In (n_id m) (map n_id l) -> insert (n_id m) m l = l ++ [m].
Proof.
  induction l as [|x l IH]; intros H; [reflexivity|]. cbn [insert]. unfold compare. rewrite Nat.eqb_refl. cbn [app]. change (1 <=? 0) with false. cbv iota. f_equal. apply IH. intros W. apply H. right. exact W.
Qed.
Lemma insert_first u x l : n_id x <> u -> insert u x l = x :: l.
Proof. intros H. destruct l as [|y l]; [reflexivity|]. cbn [insert]. unfold compare. destruct (Nat.eqb_spec (n_id x) u); [congruence|]. destruct (Nat.eqb_spec (n_id y) u); reflexivity. Qed.
Lemma sort_front a m b : NoDup (map n_id (a ++ m :: b)) -> sort (n_id m) (a ++ m :: b) = a ++ b ++ [m].
Proof.
  intros N. destruct (before_out _ _ _ N) as [Ha Hb]. clear N. induction a as [|x a IH]; cbn [app sort]; [rewrite sort_out by exact Hb; apply insert_last, Hb|].
  rewrite IH by (intros W; apply Ha; right; exact W). apply insert_first. intros W. apply Ha. left. exact W.
Qed.
Lemma filter_all {A} f (l : list A) : (forall x, In x l -> f x = true) -> filter f l = l.
Proof. induction l as [|y l IH]; intros H; [reflexivity|]. cbn [filter]. rewrite (H y (or_introl eq_refl)). f_equal. apply IH. intros x Hx. apply H. right. exact Hx. Qed.
Lemma drop_it a m b : NoDup (map n_id (a ++ m :: b)) -> drop (n_id m) (a ++ m :: b) = a ++ b.
Proof.
  intros N. destruct (before_out _ _ _ N) as [Ha Hb]. unfold drop. rewrite filter_app. cbn [filter]. rewrite Nat.eqb_refl. cbn [negb].
  assert (forall l, ~ In (n_id m) (map n_id l) -> filter (fun m0 => negb (Nat.eqb (n_id m0) (n_id m))) l = l) as Q.
  { intros l H. apply filter_all. intros x Hx. destruct (Nat.eqb_spec (n_id x) (n_id m)) as [E|E]; [|reflexivity]. destruct H. rewrite <- E. apply in_map, Hx. }
  rewrite (Q a Ha), (Q b Hb). reflexivity.
Qed.

(* Dots *)
Definition fixed (i : info) : Prop := is_dot (i_type i) = true -> forall b, i_bounds i = Some b -> is8 (b_w b) && is8 (b_h b) = true.
Lemma dot_8 b : is8 (b_w (dot b)) && is8 (b_h (dot b)) = true.
Proof. unfold dot. destruct (is8 (b_w b) && is8 (b_h b)) eqn:E; [exact E|reflexivity]. Qed.
Lemma fixed_setup i : fixed (setup_type i).
Proof.
  unfold fixed, setup_type. destruct (is_dot (i_type i)) eqn:D; [|intros W; rewrite D in W; discriminate W]. destruct (i_bounds i) as [b|] eqn:B; [|intros _ b W; rewrite B in W; discriminate W].
  cbn [set_b i_type i_bounds]. intros _ b' W. injection W as <-. apply dot_8.
Qed.
Lemma setup_fixed i : fixed i -> setup_type i = i.
Proof.
  unfold fixed, setup_type. destruct (is_dot (i_type i)) eqn:D; [|reflexivity]. destruct (i_bounds i) as [b|] eqn:B; [|reflexivity]. intros H. unfold dot. rewrite (H eq_refl b eq_refl). destruct i as [ty a bo ar]. cbn in *. unfold set_b. cbn. congruence.
Qed.
Lemma view_setup n : view (setup n) = map (fun r => (r_id r, setup_type (r_info r), snd r)) (view n).
Proof.
  induction n as [id i|id i l IH] using node_ind'; [reflexivity|]. cbn [setup view option_map some map r_id r_info fst snd]. f_equal. clear id i. induction IH as [|x l H _ IH]; [reflexivity|]. cbn [map flat_map]. rewrite map_app, H, IH. reflexivity.
Qed.
Lemma setup_same n : (forall r, In r (view n) -> fixed (r_info r)) -> setup n = n.
Proof.
  induction n as [id i|id i l IH] using node_ind'; intros H; cbn [setup option_map].
  - rewrite (setup_fixed i); [reflexivity|]. apply (H (id, i, false)). left. reflexivity.
  - rewrite (setup_fixed i) by (apply (H (id, i, true)); left; reflexivity). do 2 f_equal. rewrite <- (map_id l) at 2. apply map_ext_in. intros x Hx. rewrite Forall_forall in IH. apply (IH x Hx). intros r Hr. apply H. cbn [view]. right. apply in_flat_map. exists x. auto.
Qed.
Lemma setup_id n : n_id (setup n) = n_id n.
Proof. destruct n. reflexivity. Qed.
Lemma setup_assign i : i_assign (setup_type i) = i_assign i.
Proof. unfold setup_type. destruct (is_dot _); [destruct (i_bounds i)|]; reflexivity. Qed.
Lemma setup_itype i : i_type (setup_type i) = i_type i.
Proof. unfold setup_type. destruct (is_dot _); [destruct (i_bounds i)|]; reflexivity. Qed.
Lemma setup_bounds i : i_bounds (setup_type i) = None <-> i_bounds i = None.
Proof. unfold setup_type. destruct (is_dot _); [destruct (i_bounds i) eqn:E|]; cbn; try rewrite E; split; congruence. Qed.
Lemma dots_ok_view n : dots_ok n = forallb (fun r : row => negb (is_dot (i_type (r_info r))) || some (i_bounds (r_info r))) (view n).
Proof.
  unfold dots_ok. rewrite <- flatten_view. induction (flatten n) as [|[id i cs] l IH]; [reflexivity|]. cbn [forallb map n_info r_info fst snd]. rewrite IH. destruct (i_bounds i); reflexivity.
Qed.

Section Inv.
Variable uses : string -> bool.
Definition used_info (i : info) : bool := match i_assign i with Some a => negb (String.eqb a "") && uses a | None => false end.
Record Inv (s : state) : Prop := {
  i_nodup : NoDup (map r_id (view (s_tree s)));
  i_next : forall r, In r (view (s_tree s)) -> (r_id r < s_next s)%nat;
  i_lab : forall r, In r (view (s_tree s)) -> editable (i_type (r_info r)) = true -> i_bounds (r_info r) <> None /\ snd r = false;
  i_dots : forall r, In r (view (s_tree s)) -> fixed (r_info r);
  i_sel : forall u, s_sel s = Some u -> exists i, In (u, i, false) (view (s_tree s)) /\ i_bounds i <> None;
  i_used : forall u, In u (s_used s) -> exists i c, In (u, i, c) (view (s_tree s)) /\ used_info i = true
}.

Lemma inv_nodup s : Inv s -> NoDup (ids (s_tree s)).
Proof. intros I. rewrite ids_view. apply i_nodup, I. Qed.
Lemma dot_editable t : is_dot t = true -> editable t = true.
Proof. unfold editable. intros ->. rewrite orb_true_r. reflexivity. Qed.
Lemma resizable_editable t : resizable t = true -> editable t = true.
Proof. unfold resizable, editable. destruct (String.eqb t "DisplayLabel"), (String.eqb t "TunerDisplay"), (is_dot t); intros H; auto. Qed.
Lemma resizable_dot t : resizable t = true -> is_dot t = false.
Proof. unfold resizable, is_dot. destruct (String.eqb_spec t "DisplayLabel") as [E|E]; [subst t; reflexivity|]. destruct (String.eqb_spec t "TunerDisplay") as [W|W]; [subst t; reflexivity|discriminate]. Qed.
Lemma labels_ok t : (forall r, In r (view t) -> editable (i_type (r_info r)) = true -> i_bounds (r_info r) <> None /\ snd r = false) -> dots_ok t = true.
Proof.
  intros H. rewrite dots_ok_view. apply forallb_forall. intros r Hr. destruct (is_dot (i_type (r_info r))) eqn:D; [|reflexivity]. destruct (H r Hr (dot_editable _ D)) as [B _]. destruct (i_bounds (r_info r)); [reflexivity|congruence].
Qed.

(* A reset of a tree with its dots set up changes no data *)
Lemma used_ids t : map n_id (filter (is_used uses) (flatten t)) = map r_id (filter (fun r => used_info (r_info r)) (view t)).
Proof.
  rewrite <- flatten_view. induction (flatten t) as [|[id i cs] l IH]; [reflexivity|]. cbn [filter map]. unfold is_used, used_info in *. cbn [n_info r_info fst snd]. destruct (match i_assign i with Some a => negb (String.eqb a "") && uses a | None => false end); cbn [map]; rewrite IH; reflexivity.
Qed.
Lemma reset_eq s : (forall r, In r (view (s_tree s)) -> editable (i_type (r_info r)) = true -> i_bounds (r_info r) <> None /\ snd r = false) -> (forall r, In r (view (s_tree s)) -> fixed (r_info r)) ->
  reset uses s = {| s_driver := s_driver s; s_tree := s_tree s; s_sel := None; s_used := map r_id (filter (fun r => used_info (r_info r)) (view (s_tree s))); s_next := s_next s |}.
Proof. intros L F. unfold reset. rewrite (labels_ok _ L), (setup_same _ F), used_ids. reflexivity. Qed.
Lemma used_in u t : In u (map r_id (filter (fun r => used_info (r_info r)) (view t))) <-> exists i c, In (u, i, c) (view t) /\ used_info i = true.
Proof.
  rewrite in_map_iff. split.
  - intros [[[id i] c] [<- H]]. apply filter_In in H. exists i, c. exact H.
  - intros [i [c [H U]]]. exists (u, i, c). split; [reflexivity|]. apply filter_In. auto.
Qed.
Lemma inv_reset s : NoDup (map r_id (view (s_tree s))) -> (forall r, In r (view (s_tree s)) -> (r_id r < s_next s)%nat) -> (forall r, In r (view (s_tree s)) -> editable (i_type (r_info r)) = true -> i_bounds (r_info r) <> None /\ snd r = false) ->
  (forall r, In r (view (s_tree s)) -> fixed (r_info r)) -> Inv (reset uses s).
Proof.
  intros N X L F. rewrite (reset_eq s L F). constructor; cbn [s_tree s_next s_sel s_used]; auto; [discriminate|]. intros u H. apply used_in, H.
Qed.
Lemma inv_open driver t s : valid t -> open uses driver t = Some s -> Inv s.
Proof.
  intros V E. unfold open in E. destruct (dots_ok t) eqn:D; [|discriminate E]. apply (f_equal (fun o => match o with Some x => x | None => s end)) in E. cbv beta iota in E. subst s. unfold reset. cbn [s_tree]. rewrite D, used_ids.
  destruct V as [V1 V2]. rewrite ids_view in V1.
  assert (map r_id (view (setup t)) = map r_id (view t)) as M by (rewrite view_setup, map_map; reflexivity).
  assert (forall r, In r (view (setup t)) -> exists r', In r' (view t) /\ r = (r_id r', setup_type (r_info r'), snd r')) as R by (intros r Hr; rewrite view_setup in Hr; apply in_map_iff in Hr; destruct Hr as [r' [<- Hr]]; exists r'; auto).
  constructor; cbn [s_tree s_next s_sel s_used].
  - rewrite M. exact V1.
  - intros r Hr. apply Nat.lt_succ_r. assert (In (r_id r) (map n_id (flatten t))) as W by (rewrite flatten_ids, <- M; apply in_map, Hr). pose proof (list_max_le (map n_id (flatten t)) (list_max (map n_id (flatten t)))) as [Q _]. specialize (Q (Nat.le_refl _)). rewrite Forall_forall in Q. apply Q, W.
  - intros r Hr. destruct (R r Hr) as [r' [Hr' ->]]. cbn [r_info fst snd]. rewrite setup_itype. intros Ed. rewrite setup_bounds. destruct (view_part r' t Hr') as [[id i cs] [P [E1 [E2 E3]]]]. cbn [n_id n_info] in E1, E2. destruct (V2 id i cs P) as [B C].
    + rewrite E2. unfold editable, is_dot in Ed. unfold can_select. destruct (String.eqb_spec (i_type (r_info r')) "DisplayLabel"), (String.eqb_spec (i_type (r_info r')) "BidirectionalProtocolState"), (String.eqb_spec (i_type (r_info r')) "TunerDisplay"); cbn in Ed |- *; first [left; congruence|right; left; congruence|right; right; left; congruence|discriminate Ed].
    + split; [congruence|]. subst cs. apply part_view in P. cbn [some] in P. rewrite E1, E2 in P. clear - P Hr' V1. revert P Hr' V1. generalize (view t). intros l. induction l as [|x l IH]; [intros []|]. cbn [map]. intros P Q N. apply NoDup_cons_iff in N. destruct N as [N1 N2]. destruct P as [->|P].
      * destruct Q as [<-|Q]; [reflexivity|]. destruct N1. cbn [r_id fst]. apply in_map_iff. exists r'. auto.
      * destruct Q as [->|Q]; [|auto]. destruct N1. apply in_map_iff. exists (r_id r', r_info r', false). auto.
  - intros r Hr. destruct (R r Hr) as [r' [Hr' ->]]. apply fixed_setup.
  - discriminate.
  - intros u H. apply used_in, H.
Qed.

Lemma nodup_map {A B} (f : A -> B) l x y : NoDup (map f l) -> In x l -> In y l -> f x = f y -> x = y.
Proof.
  induction l as [|z l IH]; [intros _ []|]. cbn [map]. intros N Hx Hy E. apply NoDup_cons_iff in N. destruct N as [N1 N2]. destruct Hx as [<-|Hx], Hy as [<-|Hy]; [reflexivity| | |auto].
  - destruct N1. rewrite E. apply in_map, Hy.
  - destruct N1. rewrite <- E. apply in_map, Hx.
Qed.
Lemma part_unique t m m' : NoDup (ids t) -> part m t -> part m' t -> n_id m = n_id m' -> m = m'.
Proof. intros N H H' E. rewrite ids_view, <- flatten_ids in N. apply (nodup_map n_id (flatten t)); [exact N|apply in_flatten, H|apply in_flatten, H'|exact E]. Qed.
Lemma search_part t u m : search u t = Some m -> part m t /\ n_id m = u.
Proof. unfold search. intros H. apply find_some in H. destruct H as [H E]. split; [apply in_flatten, H|apply Nat.eqb_eq, E]. Qed.
Lemma type_of_part s m : Inv s -> part m (s_tree s) -> type_of s (n_id m) = i_type (n_info m).
Proof.
  intros I P. unfold type_of. destruct (search (n_id m) (s_tree s)) as [m'|] eqn:E.
  - apply search_part in E. destruct E as [P' E]. rewrite (part_unique _ _ _ (inv_nodup s I) P' P E). reflexivity.
  - exfalso. apply in_flatten in P. apply (find_none _ _ E) in P. rewrite Nat.eqb_refl in P. discriminate P.
Qed.
Lemma leaf_part t u i : In (u, i, false) (view t) -> part (N u i None) t.
Proof. intros H. apply view_part in H. destruct H as [m [P [_ [_ E]]]]. rewrite (E eq_refl) in P. exact P. Qed.
Lemma part_leaf s u i cs : Inv s -> part (N u i cs) (s_tree s) -> editable (i_type i) = true -> cs = None /\ i_bounds i <> None.
Proof. intros I P E. apply part_view in P. destruct (i_lab s I _ P E) as [B C]. cbn [snd r_info fst] in *. destruct cs; [discriminate C|auto]. Qed.
Lemma editable_leaf s u : Inv s -> editable (type_of s u) = true -> exists i, part (N u i None) (s_tree s) /\ editable (i_type i) = true /\ i_bounds i <> None /\ i_type i = type_of s u.
Proof.
  intros I E. unfold type_of in *. destruct (search u (s_tree s)) as [[id i cs]|] eqn:F; [|discriminate E]. apply search_part in F. destruct F as [P <-]. cbn [n_info n_id] in *. destruct (part_leaf _ _ _ _ I P E) as [-> B]. exists i. auto.
Qed.
Lemma sel_leaf s u : Inv s -> s_sel s = Some u -> exists i, part (N u i None) (s_tree s) /\ i_bounds i <> None.
Proof. intros I E. destruct (i_sel s I u E) as [i [H B]]. exists i. split; [apply leaf_part, H|exact B]. Qed.
Lemma change_leaf f s u i : Inv s -> part (N u i None) (s_tree s) -> exchanged (N u i None) (N u (f i) None) (s_tree s) (change_info u f (s_tree s)).
Proof. intros I P. unfold change_info. apply (change_exchanged (fun n => match n with N id i cs => N id (f i) cs end) _ _ (inv_nodup s I)) in P. exact P. Qed.

Lemma inv_exchange s t' u i i' : Inv s -> exchanged (N u i None) (N u i' None) (s_tree s) t' -> (editable (i_type i') = true -> i_bounds i' <> None) -> fixed i' ->
  (i_bounds i <> None -> i_bounds i' <> None) -> (In u (s_used s) -> used_info i = true -> used_info i' = true) -> Inv (with_tree s t').
Proof.
  intros I X Ed Fx Bo Us. apply exchanged_view in X. destruct X as [A [B [E E']]]. cbn [view some] in E, E'. destruct I as [I1 I2 I3 I4 I5 I6]. rewrite E in I1, I2, I3, I4, I5, I6.
  assert (forall r, In r (A ++ [(u, i', false)] ++ B) -> r = (u, i', false) \/ In r (A ++ [(u, i, false)] ++ B)) as Q.
  { intros r Hr. apply in_app_or in Hr. destruct Hr as [Hr|[Hr|Hr]]; [right; apply in_or_app; auto|left; auto|right; apply in_or_app; right; right; exact Hr]. }
  assert (forall r, In r (A ++ [(u, i, false)] ++ B) -> r = (u, i, false) \/ In r (A ++ [(u, i', false)] ++ B)) as Q'.
  { intros r Hr. apply in_app_or in Hr. destruct Hr as [Hr|[Hr|Hr]]; [right; apply in_or_app; auto|left; auto|right; apply in_or_app; right; right; exact Hr]. }
  assert (In (u, i', false) (A ++ [(u, i', false)] ++ B)) as H' by (apply in_or_app; right; left; reflexivity).
  assert (In (u, i, false) (A ++ [(u, i, false)] ++ B)) as H by (apply in_or_app; right; left; reflexivity).
  constructor; unfold with_tree; cbn [s_tree s_next s_sel s_used]; rewrite E'.
  - rewrite !map_app in *. cbn [map r_id fst] in *. exact I1.
  - intros r Hr. destruct (Q r Hr) as [->|W]; [apply (I2 _ H)|apply I2, W].
  - intros r Hr Hd. destruct (Q r Hr) as [->|W]; [split; [apply Ed, Hd|reflexivity]|apply (I3 r W Hd)].
  - intros r Hr. destruct (Q r Hr) as [->|W]; [exact Fx|apply I4, W].
  - intros v Hv. destruct (I5 v Hv) as [j [Hj Bj]]. destruct (Q' _ Hj) as [W|W]; [|exists j; auto]. injection W as -> ->. exists i'. split; [exact H'|apply Bo, Bj].
  - intros v Hv. destruct (I6 v Hv) as [j [c [Hj Uj]]]. destruct (Q' _ Hj) as [W|W]; [|exists j, c; auto]. injection W as -> -> ->. exists i', false. split; [exact H'|apply (Us Hv Uj)].
Qed.
Lemma perm_flat l l' : Permutation l l' -> Permutation (flat_map view l) (flat_map view l').
Proof.
  induction 1 as [|x l l' _ IH|x y l|l l' l'' _ IH1 _ IH2]; cbn [flat_map]; [constructor|apply Permutation_app_head, IH| |rewrite IH1; exact IH2]. rewrite !app_assoc. apply Permutation_app_tail, Permutation_app_comm.
Qed.
Lemma replaced_perm l l' t t' : replaced l l' t t' -> Permutation l l' -> Permutation (view t) (view t').
Proof. intros R P. apply replaced_view in R. destruct R as [A [B [-> [-> _]]]]. apply Permutation_app_head, Permutation_app_tail, perm_flat, P. Qed.
Lemma inv_perm s t' : Inv s -> Permutation (view (s_tree s)) (view t') -> Inv (with_tree s t').
Proof.
  intros [I1 I2 I3 I4 I5 I6] P. pose proof (Permutation_sym P) as P'. constructor; unfold with_tree; cbn [s_tree s_next s_sel s_used].
  - apply (Permutation_NoDup (Permutation_map r_id P) I1).
  - intros r Hr. apply I2, (Permutation_in r P' Hr).
  - intros r Hr. apply I3, (Permutation_in r P' Hr).
  - intros r Hr. apply I4, (Permutation_in r P' Hr).
  - intros u Hu. destruct (I5 u Hu) as [i [H B]]. exists i. split; [apply (Permutation_in _ P H)|exact B].
  - intros u Hu. destruct (I6 u Hu) as [i [c [H B]]]. exists i, c. split; [apply (Permutation_in _ P H)|exact B].
Qed.
Lemma inv_sel s u : Inv s -> match u with Some u => exists i, In (u, i, false) (view (s_tree s)) /\ i_bounds i <> None | None => True end -> Inv (with_sel s u).
Proof. intros [I1 I2 I3 I4 I5 I6] H. constructor; unfold with_sel; cbn [s_tree s_next s_sel s_used]; auto. intros v ->. exact H. Qed.

(* The operations *)
Lemma front_replaced s m : Inv s -> part m (s_tree s) -> n_id m <> n_id (s_tree s) -> exists a b, replaced (a ++ m :: b) (a ++ b ++ [m]) (s_tree s) (siblings (n_id m) (sort (n_id m)) (s_tree s)).
Proof. intros I P R. destruct (siblings_replaced (sort (n_id m)) m _ (inv_nodup s I) P R) as [a [b [X N]]]. rewrite (sort_front _ _ _ N) in X. exists a, b. exact X. Qed.
Lemma up_replaced s m : Inv s -> part m (s_tree s) -> n_id m <> n_id (s_tree s) -> exists a b, replaced (a ++ m :: b) (match b with x :: b => a ++ x :: m :: b | [] => a ++ [m] end) (s_tree s) (siblings (n_id m) (move_up (n_id m)) (s_tree s)).
Proof.
  intros I P R. destruct (siblings_replaced (move_up (n_id m)) m _ (inv_nodup s I) P R) as [a [b [X N]]]. exists a, b. destruct (before_out _ _ _ N) as [Na _]. destruct b as [|x b]; [rewrite (move_up_last _ _ Na) in X|rewrite (move_up_next _ _ _ _ Na) in X]; exact X.
Qed.
Lemma down_replaced s m : Inv s -> part m (s_tree s) -> n_id m <> n_id (s_tree s) ->
  exists a b, replaced (a ++ m :: b) (match rev a with x :: a => rev a ++ m :: x :: b | [] => m :: b end) (s_tree s) (siblings (n_id m) (move_down (n_id m)) (s_tree s)).
Proof.
  intros I P R. destruct (siblings_replaced (move_down (n_id m)) m _ (inv_nodup s I) P R) as [a [b [X N]]]. exists a, b. destruct (before_out _ _ _ N) as [Na _]. destruct (rev a) as [|x a'] eqn:E.
  - apply (f_equal (@rev node)) in E. rewrite rev_involutive in E. cbn in E. subst a. cbn [app] in X |- *. rewrite move_down_first in X. exact X.
  - apply (f_equal (@rev node)) in E. rewrite rev_involutive in E. cbn [rev] in E. subst a. rewrite <- app_assoc in X. cbn [app] in X. rewrite (move_down_prev _ _ _ _ Na) in X. rewrite <- app_assoc. exact X.
Qed.
Lemma drop_replaced s m : Inv s -> part m (s_tree s) -> n_id m <> n_id (s_tree s) -> exists a b, replaced (a ++ m :: b) (a ++ b) (s_tree s) (siblings (n_id m) (drop (n_id m)) (s_tree s)).
Proof. intros I P R. destruct (siblings_replaced (drop (n_id m)) m _ (inv_nodup s I) P R) as [a [b [X N]]]. rewrite (drop_it _ _ _ N) in X. exists a, b. exact X. Qed.

Lemma front_perm s u i : Inv s -> part (N u i None) (s_tree s) -> Permutation (view (s_tree s)) (view (siblings u (sort u) (s_tree s))).
Proof.
  intros I P. destruct (Nat.eq_dec u (n_id (s_tree s))) as [->|R]; [rewrite (siblings_root _ _ (inv_nodup s I)); reflexivity|]. destruct (front_replaced s _ I P R) as [a [b X]]. apply (replaced_perm _ _ _ _ X). apply Permutation_app_head. apply Permutation_cons_append.
Qed.
Lemma up_perm s u i : Inv s -> part (N u i None) (s_tree s) -> Permutation (view (s_tree s)) (view (siblings u (move_up u) (s_tree s))).
Proof.
  intros I P. destruct (Nat.eq_dec u (n_id (s_tree s))) as [->|R]; [rewrite (siblings_root _ _ (inv_nodup s I)); reflexivity|]. destruct (up_replaced s _ I P R) as [a [b X]]. apply (replaced_perm _ _ _ _ X). destruct b as [|x b]; [reflexivity|]. apply Permutation_app_head. constructor.
Qed.
Lemma down_perm s u i : Inv s -> part (N u i None) (s_tree s) -> Permutation (view (s_tree s)) (view (siblings u (move_down u) (s_tree s))).
Proof.
  intros I P. destruct (Nat.eq_dec u (n_id (s_tree s))) as [->|R]; [rewrite (siblings_root _ _ (inv_nodup s I)); reflexivity|]. destruct (down_replaced s _ I P R) as [a [b X]]. apply (replaced_perm _ _ _ _ X). destruct (rev a) as [|x a'] eqn:E.
  - apply (f_equal (@rev node)) in E. rewrite rev_involutive in E. cbn in E. subst a. reflexivity.
  - apply (f_equal (@rev node)) in E. rewrite rev_involutive in E. cbn [rev] in E. subst a. rewrite <- app_assoc. apply Permutation_app_head. cbn [app]. constructor.
Qed.

Lemma is8_write d : is8 d = true -> is8 (write (at_least_1 (num d))) = true.
Proof. unfold is8, num. destruct (value d) as [z|]; [|discriminate]. intros E. apply Z.eqb_eq in E. subst z. reflexivity. Qed.
Lemma with_bounds_type f i : i_type (with_bounds f i) = i_type i.
Proof. unfold with_bounds. destruct (i_bounds i); reflexivity. Qed.
Lemma with_bounds_assign f i : i_assign (with_bounds f i) = i_assign i.
Proof. unfold with_bounds. destruct (i_bounds i); reflexivity. Qed.
Lemma with_bounds_none f i : i_bounds (with_bounds f i) = None <-> i_bounds i = None.
Proof. unfold with_bounds. destruct (i_bounds i) eqn:E; cbn; [split; discriminate|]. rewrite E. reflexivity. Qed.
Lemma with_bounds_fixed f i : fixed i -> (is_dot (i_type i) = true -> forall b, i_bounds i = Some b -> is8 (b_w b) && is8 (b_h b) = true -> is8 (b_w (f b)) && is8 (b_h (f b)) = true) -> fixed (with_bounds f i).
Proof.
  intros F H D b E. rewrite with_bounds_type in D. unfold with_bounds in E. destruct (i_bounds i) as [b0|] eqn:B; [|congruence]. cbn [set_b i_bounds] in E. injection E as <-. apply (H D b0 eq_refl), (F D b0 B).
Qed.
Lemma keep_size x y b : is8 (b_w b) && is8 (b_h b) = true -> is8 (b_w (set_bounds x y (num (b_w b)) (num (b_h b)))) && is8 (b_h (set_bounds x y (num (b_w b)) (num (b_h b)))) = true.
Proof. intros H. apply andb_true_iff in H. destruct H as [H1 H2]. cbn [set_bounds b_w b_h]. rewrite (is8_write _ H1), (is8_write _ H2). reflexivity. Qed.
Lemma inv_bounds s u f : Inv s -> editable (type_of s u) = true ->
  (is_dot (type_of s u) = true -> forall b, is8 (b_w b) && is8 (b_h b) = true -> is8 (b_w (f b)) && is8 (b_h (f b)) = true) -> Inv (with_tree s (change_info u (with_bounds f) (s_tree s))).
Proof.
  intros I E H. destruct (editable_leaf s u I E) as [i [P [Ed [B T]]]]. apply (inv_exchange s _ u i (with_bounds f i) I (change_leaf (with_bounds f) s u i I P)).
  - intros _. rewrite with_bounds_none. exact B.
  - apply with_bounds_fixed; [apply (i_dots s I (u, i, false)), (part_view _ _ _ _ P)|]. intros D b Eb. rewrite T in D. apply (H D).
  - rewrite with_bounds_none. auto.
  - intros _. unfold used_info. rewrite with_bounds_assign. auto.
Qed.
Lemma in_used_iff u s : in_used u s = true <-> In u (s_used s).
Proof. unfold in_used. rewrite existsb_exists. split; [intros [x [H E]]; apply Nat.eqb_eq in E; subst; exact H|intros H; exists u; split; [exact H|apply Nat.eqb_refl]]. Qed.
Lemma change_type t s u i : Inv s -> part (N u i None) (s_tree s) -> i_bounds i <> None ->
  exists i', exchanged (N u i None) (N u i' None) (s_tree s) (change u (set_type t) (s_tree s)) /\ i_type i' = t /\ i_assign i' = i_assign i /\ i_bounds i' <> None /\ fixed i' /\
    (i_type i = t -> i' = i) /\ (i_type i <> t -> i_args i' = default_args t /\ (is_dot t = false -> i_bounds i' = i_bounds i)).
Proof.
  intros I P B. pose proof (change_exchanged (set_type t) _ _ (inv_nodup s I) P) as X. cbn [n_id] in X. cbn [set_type] in X. destruct (String.eqb_spec (i_type i) t) as [E|E].
  - exists i. split; [exact X|]. split; [exact E|]. split; [reflexivity|]. split; [exact B|]. split; [apply (i_dots s I (u, i, false)), (part_view _ _ _ _ P)|]. split; [reflexivity|congruence].
  - destruct (i_bounds i) as [b|] eqn:Eb; [|congruence].
    match type of X with exchanged _ (N _ ?j _) _ _ => exists j end. split; [exact X|]. rewrite setup_itype, setup_assign, setup_bounds. split; [reflexivity|]. split; [reflexivity|]. split; [discriminate|]. split; [apply fixed_setup|]. split; [congruence|]. intros _. unfold setup_type. cbn [i_type i_bounds i_args]. destruct (is_dot t) eqn:D; [split; [reflexivity|discriminate]|split; reflexivity].
Qed.
Lemma next_label_fresh' n : forall fuel k, (exists j, (k <= j < k + S fuel)%nat /\ has_name (label j) n = false) -> has_name (next_label fuel k n) n = false.
Proof.
  induction fuel as [|fuel IH]; intros k [j [Hj H]]; cbn [next_label].
  - replace k with j by lia. exact H.
  - destruct (has_name (label k) n) eqn:E; [|exact E]. apply IH. exists j. split; [|exact H]. assert (j <> k) by congruence. lia.
Qed.
Lemma label_inj a b : label a = label b -> a = b.
Proof.
  unfold label. intros H. assert (NilEmpty.string_of_uint (Nat.to_uint a) = NilEmpty.string_of_uint (Nat.to_uint b)) as E.
  { cbn [append] in H. repeat (injection H as H). exact H. }
  apply (f_equal NilEmpty.uint_of_string) in E. rewrite !NilEmpty.usu in E. injection E as E. apply DecimalNat.Unsigned.to_uint_inj, E.
Qed.
Lemma next_label_fresh n : has_name (next_label (length (flatten n)) 1 n) n = false.
Proof.
  apply next_label_fresh'. set (names := flat_map (fun m => match i_assign (n_info m) with Some a => [a] | None => [] end) (flatten n)).
  assert (forall a, has_name a n = true <-> In a names) as Q.
  { intros a. unfold has_name, names. rewrite existsb_exists, in_flat_map. split; intros [m [Hm H]]; exists m; (split; [exact Hm|]); destruct (i_assign (n_info m)) as [b|]; try discriminate H.
    - apply String.eqb_eq in H. subst b. left. reflexivity.
    - destruct H as [<-|[]]. apply String.eqb_refl.
    - destruct H. }
  assert (length names <= length (flatten n))%nat as L.
  { unfold names. clear. induction (flatten n) as [|m l IH]; [reflexivity|]. cbn [flat_map length]. rewrite app_length. destruct (i_assign (n_info m)); cbn [length]; lia. }
  destruct (existsb (fun j => negb (has_name (label j) n)) (seq 1 (S (length (flatten n))))) eqn:E.
  - apply existsb_exists in E. destruct E as [j [Hj E]]. apply in_seq in Hj. exists j. split; [lia|]. apply negb_true_iff, E.
  - exfalso. assert (incl (map label (seq 1 (S (length (flatten n))))) names) as W.
    { intros a Ha. apply in_map_iff in Ha. destruct Ha as [j [<- Hj]]. apply Q. destruct (has_name (label j) n) eqn:F; [reflexivity|]. exfalso. assert (existsb (fun j => negb (has_name (label j) n)) (seq 1 (S (length (flatten n)))) = true) as W by (apply existsb_exists; exists j; rewrite F; auto). congruence. }
    apply NoDup_incl_length in W.
    + rewrite map_length, seq_length in W. lia.
    + apply FinFun.Injective_map_NoDup; [intros x y; apply label_inj|apply seq_NoDup].
Qed.

(* Elements which are used *)
Definition kept (u : nat) (a : string) (s : state) : Prop := uses a = true /\ a <> "" /\ In u (s_used s) /\ exists i c, In (u, i, c) (view (s_tree s)) /\ i_assign i = Some a.
Definition good (s s' : state) : Prop := Inv s' /\ forall u a, kept u a s -> kept u a s'.
Lemma good_same s : Inv s -> good s s.
Proof. split; auto. Qed.
Lemma good_sel s u : Inv s -> match u with Some u => exists i, In (u, i, false) (view (s_tree s)) /\ i_bounds i <> None | None => True end -> good s (with_sel s u).
Proof. intros I H. split; [apply inv_sel; assumption|]. intros v a K. exact K. Qed.
Lemma good_exchange s t' u i i' : Inv s -> exchanged (N u i None) (N u i' None) (s_tree s) t' -> (editable (i_type i') = true -> i_bounds i' <> None) -> fixed i' ->
  (i_bounds i <> None -> i_bounds i' <> None) -> (In u (s_used s) -> i_assign i' = i_assign i) -> good s (with_tree s t').
Proof.
  intros I X Ed Fx Bo Us. split.
  - apply (inv_exchange s t' u i i' I X Ed Fx Bo). intros H. unfold used_info. rewrite (Us H). auto.
  - intros v a [H1 [H2 [H3 [j [c [H4 H5]]]]]]. split; [exact H1|]. split; [exact H2|]. split; [exact H3|]. apply exchanged_view in X. destruct X as [A [B [E E']]]. cbn [view some] in E, E'. rewrite E in H4. unfold with_tree. cbn [s_tree]. rewrite E'.
    apply in_app_or in H4. destruct H4 as [H4|[H4|H4]].
    + exists j, c. split; [apply in_or_app; left; exact H4|exact H5].
    + injection H4 as <- <- <-. exists i', false. split; [apply in_or_app; right; left; reflexivity|]. rewrite (Us H3). exact H5.
    + exists j, c. split; [apply in_or_app; right; right; exact H4|exact H5].
Qed.
Lemma good_perm s t' : Inv s -> Permutation (view (s_tree s)) (view t') -> good s (with_tree s t').
Proof.
  intros I P. split; [apply (inv_perm s t' I P)|]. intros u a [H1 [H2 [H3 [i [c [H4 H5]]]]]]. split; [exact H1|]. split; [exact H2|]. split; [exact H3|]. exists i, c. split; [apply (Permutation_in _ P H4)|exact H5].
Qed.
Lemma good_trans s s' s'' : good s s' -> good s' s'' -> good s s''.
Proof. intros [_ A] [I B]. split; [exact I|]. auto. Qed.
Lemma used_info_iff i : used_info i = true <-> exists a, i_assign i = Some a /\ a <> "" /\ uses a = true.
Proof.
  unfold used_info. destruct (i_assign i) as [a|]; [|split; [discriminate|intros [a [W _]]; discriminate W]]. rewrite andb_true_iff, negb_true_iff, String.eqb_neq. split; [intros [A B]; exists a; auto|intros [b [E [A B]]]; injection E as <-; auto].
Qed.
Lemma good_reset d s : Inv s -> good s (reset uses {| s_driver := d; s_tree := s_tree s; s_sel := s_sel s; s_used := s_used s; s_next := s_next s |}).
Proof.
  intros I. destruct I as [I1 I2 I3 I4 I5 I6]. split; [apply inv_reset; assumption|]. intros u a [H1 [H2 [H3 [i [c [H4 H5]]]]]]. rewrite reset_eq by assumption. split; [exact H1|]. split; [exact H2|]. cbn [s_used s_tree]. split; [|exists i, c; auto]. apply used_in. exists i, c. split; [exact H4|]. apply used_info_iff. exists a. auto.
Qed.
Lemma state_eta s : s = {| s_driver := s_driver s; s_tree := s_tree s; s_sel := s_sel s; s_used := s_used s; s_next := s_next s |}.
Proof. destruct s. reflexivity. Qed.
Lemma good_reset' s : Inv s -> good s (reset uses s).
Proof. intros I. rewrite (state_eta s) at 2. apply good_reset, I. Qed.
Lemma removed_view s m : Inv s -> part m (s_tree s) -> n_id m <> n_id (s_tree s) -> exists A B, view (s_tree s) = A ++ view m ++ B /\ view (siblings (n_id m) (drop (n_id m)) (s_tree s)) = A ++ B.
Proof.
  intros I P R. destruct (drop_replaced s m I P R) as [a [b X]]. apply replaced_view in X. destruct X as [A [B [E [E' _]]]]. rewrite flat_map_app in E, E'. cbn [flat_map] in E. exists (A ++ flat_map view a), (flat_map view b ++ B). rewrite E, E', <- !app_assoc. auto.
Qed.
Lemma inv_removed s m : Inv s -> part m (s_tree s) -> n_id m <> n_id (s_tree s) -> 
  let t' := siblings (n_id m) (drop (n_id m)) (s_tree s) in NoDup (map r_id (view t')) /\ (forall r, In r (view t') -> In r (view (s_tree s))).
Proof.
  intros I P R. destruct (removed_view s m I P R) as [A [B [E E']]]. cbn zeta. rewrite E'. split.
  - pose proof (i_nodup s I) as N. rewrite E in N. rewrite !map_app in N. rewrite map_app. revert N. generalize (map r_id A) (map r_id (view m)) (map r_id B). clear. intros a m b. induction a as [|x a IH]; cbn [app]; [apply NoDup_app_remove_l|]. intros N. apply NoDup_cons_iff in N. destruct N as [N1 N2]. constructor; [|auto]. intros W. apply N1. apply in_app_or in W. apply in_or_app. destruct W as [W|W]; [left; exact W|right; apply in_or_app; right; exact W].
  - intros r Hr. rewrite E. apply in_app_or in Hr. apply in_or_app. destruct Hr as [W|W]; [left; exact W|right; apply in_or_app; right; exact W].
Qed.
Lemma good_remove s u i : Inv s -> part (N u i None) (s_tree s) -> u <> n_id (s_tree s) -> in_used u s = false -> good s (reset uses (with_tree s (siblings u (drop u) (s_tree s)))).
Proof.
  intros I P R U. pose proof (inv_removed s _ I P R) as Q. cbn [n_id] in Q. cbn zeta in Q. destruct Q as [N S].
  assert (forall r, In r (view (siblings u (drop u) (s_tree s))) -> editable (i_type (r_info r)) = true -> i_bounds (r_info r) <> None /\ snd r = false) as L by (intros r Hr; apply (i_lab s I r (S r Hr))).
  assert (forall r, In r (view (siblings u (drop u) (s_tree s))) -> fixed (r_info r)) as F by (intros r Hr; apply (i_dots s I r (S r Hr))).
  split.
  - apply inv_reset; unfold with_tree; cbn [s_tree s_next]; [exact N|intros r Hr; apply (i_next s I r (S r Hr))|exact L|exact F].
  - intros v a [H1 [H2 [H3 [j [c [H4 H5]]]]]]. rewrite reset_eq by (unfold with_tree; cbn [s_tree]; assumption). split; [exact H1|]. split; [exact H2|]. unfold with_tree. cbn [s_used s_tree].
    assert (In (v, j, c) (view (siblings u (drop u) (s_tree s)))) as W.
    { destruct (removed_view s _ I P R) as [A [B [E E']]]. cbn [n_id] in E'. rewrite E'. rewrite E in H4. cbn [view some] in H4. apply in_or_app. apply in_app_or in H4. destruct H4 as [H4|[H4|H4]]; [left; exact H4| |right; exact H4]. injection H4 as W _ _. subst v. apply in_used_iff in H3. congruence. }
    split; [|exists j, c; auto]. apply used_in. exists j, c. split; [exact W|]. apply used_info_iff. exists a. auto.
Qed.
Lemma good_create s id i l : Inv s -> s_tree s = N id i (Some l) -> forall a,
  let t' := N id i (Some (l ++ [new_element (s_next s) a])) in
  let s' := {| s_driver := s_driver s; s_tree := t'; s_sel := s_sel s; s_used := s_used s; s_next := S (s_next s) |} in
  s_tree (reset uses s') = t' /\ good s (with_sel (reset uses s') (Some (s_next s))).
Proof.
  intros I E a t' s'. destruct (new_element (s_next s) a) as [n' j' cs'] eqn:En. unfold new_element in En. injection En as <- Ej <-.
  assert (view t' = view (s_tree s) ++ [(s_next s, j', false)]) as V by (rewrite E; unfold t'; cbn [view some]; rewrite flat_map_app; reflexivity).
  assert (i_type j' = "DisplayLabel" /\ i_bounds j' <> None) as [T B] by (rewrite <- Ej; split; [reflexivity|discriminate]). clear Ej.
  assert (forall r, In r (view t') -> In r (view (s_tree s)) \/ r = (s_next s, j', false)) as C by (intros r Hr; rewrite V in Hr; apply in_app_or in Hr; destruct Hr as [Hr|[Hr|[]]]; [left; exact Hr|right; auto]).
  assert (NoDup (map r_id (view t'))) as C1.
  { rewrite V, map_app. cbn [map r_id fst]. apply (Permutation_NoDup (Permutation_cons_append _ _)). constructor; [|apply i_nodup, I]. intros W. apply in_map_iff in W. destruct W as [r [W Hr]]. pose proof (i_next s I r Hr). lia. }
  assert (forall r, In r (view t') -> (r_id r < S (s_next s))%nat) as C2 by (intros r Hr; destruct (C r Hr) as [W|W]; [pose proof (i_next s I r W); lia|subst r; cbn; lia]).
  assert (forall r, In r (view t') -> editable (i_type (r_info r)) = true -> i_bounds (r_info r) <> None /\ snd r = false) as C3 by (intros r Hr; destruct (C r Hr) as [W|W]; [apply (i_lab s I r W)|subst r; intros _; split; [exact B|reflexivity]]).
  assert (forall r, In r (view t') -> fixed (r_info r)) as C4 by (intros r Hr; destruct (C r Hr) as [W|W]; [apply (i_dots s I r W)|subst r; intros D; cbn [r_info fst snd] in D; rewrite T in D; discriminate D]).
  split; [rewrite reset_eq by assumption; reflexivity|]. split.
  - apply inv_sel; [apply inv_reset; assumption|]. rewrite reset_eq by assumption. cbn [s_tree]. exists j'. split; [change (In (s_next s, j', false) (view t')); rewrite V; apply in_or_app; right; left; reflexivity|exact B].
  - intros v b [H1 [H2 [H3 [j [c [H4 H5]]]]]]. rewrite reset_eq by assumption. unfold with_sel. cbn [s_used s_tree]. split; [exact H1|]. split; [exact H2|].
    assert (In (v, j, c) (view t')) as W by (rewrite V; apply in_or_app; left; exact H4). cbn [s_used s_tree]. split; [|exists j, c; auto]. apply used_in. exists j, c. split; [exact W|]. apply used_info_iff. exists b. auto.
Qed.
Lemma good_bounds s u f : Inv s -> editable (type_of s u) = true ->
  (is_dot (type_of s u) = true -> forall b, is8 (b_w b) && is8 (b_h b) = true -> is8 (b_w (f b)) && is8 (b_h (f b)) = true) -> good s (with_tree s (change_info u (with_bounds f) (s_tree s))).
Proof.
  intros I E H. destruct (editable_leaf s u I E) as [i [P [Ed [B T]]]]. apply (good_exchange s _ u i (with_bounds f i) I (change_leaf (with_bounds f) s u i I P)).
  - intros _. rewrite with_bounds_none. exact B.
  - apply with_bounds_fixed; [apply (i_dots s I (u, i, false)), (part_view _ _ _ _ P)|]. intros D b Eb. rewrite T in D. apply (H D).
  - rewrite with_bounds_none. auto.
  - intros _. apply with_bounds_assign.
Qed.
Lemma front_good s u : Inv s -> editable (type_of s u) = true -> good s (with_tree (with_sel s (Some u)) (siblings u (sort u) (s_tree s))).
Proof.
  intros I E. destruct (editable_leaf s u I E) as [i [P [_ [B _]]]]. pose proof (part_view _ _ _ _ P) as V. cbn [some] in V.
  assert (good s (with_sel s (Some u))) as G by (apply good_sel; [exact I|exists i; auto]). apply (good_trans _ _ _ G). apply (good_perm (with_sel s (Some u))); [apply G|]. apply (front_perm s u i I P).
Qed.
Lemma good_step s o : Inv s -> good s (step uses s o).
Proof.
  intros I. assert (forall f, (forall u, s_sel s = Some u -> good s (f u)) -> good s (selected s f)) as SEL by (intros f H; unfold selected; destruct (s_sel s) as [u|]; [apply H; reflexivity|apply good_same, I]).
  destruct o as [[u|]|u|u dx dy|u|u w h|q|q|q|q| | |a|t|k v def| | |d|]; cbn [step].
  - destruct (editable (type_of s u)) eqn:E; [|apply good_same, I]. destruct (editable_leaf s u I E) as [i [P [_ [B _]]]]. apply good_sel; [exact I|]. exists i. split; [apply (part_view _ _ _ _ P)|exact B].
  - apply good_sel; [exact I|exact Logic.I].
  - destruct (editable (type_of s u)) eqn:E; [|apply good_same, I]. apply front_good; assumption.
  - destruct (editable (type_of s u)) eqn:E; [|apply good_same, I]. apply good_bounds; [assumption..|]. intros _ b Hb. apply keep_size, Hb.
  - destruct (resizable (type_of s u)) eqn:E; [|apply good_same, I]. apply front_good; [exact I|apply resizable_editable, E].
  - destruct (resizable (type_of s u)) eqn:E; [|apply good_same, I]. apply good_bounds; [exact I|apply resizable_editable, E|]. intros D. rewrite (resizable_dot _ E) in D. discriminate D.
  - apply SEL. intros u Hu. destruct (editable (type_of s u)) eqn:E; [|apply good_same, I]. apply good_bounds; [assumption..|]. intros _ b Hb. apply keep_size, Hb.
  - apply SEL. intros u Hu. destruct (editable (type_of s u)) eqn:E; [|apply good_same, I]. apply good_bounds; [assumption..|]. intros _ b Hb. apply keep_size, Hb.
  - apply SEL. intros u Hu. destruct (resizable (type_of s u)) eqn:E; [|apply good_same, I]. apply good_bounds; [exact I|apply resizable_editable, E|]. intros D. rewrite (resizable_dot _ E) in D. discriminate D.
  - apply SEL. intros u Hu. destruct (resizable (type_of s u)) eqn:E; [|apply good_same, I]. apply good_bounds; [exact I|apply resizable_editable, E|]. intros D. rewrite (resizable_dot _ E) in D. discriminate D.
  - apply SEL. intros u Hu. destruct (sel_leaf s u I Hu) as [i [P B]]. apply good_perm; [exact I|apply (up_perm s u i I P)].
  - apply SEL. intros u Hu. destruct (sel_leaf s u I Hu) as [i [P B]]. apply good_perm; [exact I|apply (down_perm s u i I P)].
  - apply SEL. intros u Hu. destruct (in_used u s) eqn:E; [apply good_same, I|]. destruct (sel_leaf s u I Hu) as [i [P B]]. pose proof (i_dots s I _ (part_view _ _ _ _ P)) as F. apply (good_exchange s _ u i (set_assign a i) I (change_leaf (set_assign a) s u i I P)); [intros _; exact B|exact F|auto|]. intros W. apply in_used_iff in W. congruence.
  - apply SEL. intros u Hu. destruct (sel_leaf s u I Hu) as [i [P B]]. destruct (change_type t s u i I P B) as [i' [X [T [A [B' [F _]]]]]]. apply (good_exchange s _ u i i' I X); auto.
  - apply SEL. intros u Hu. destruct (sel_leaf s u I Hu) as [i [P B]]. pose proof (i_dots s I _ (part_view _ _ _ _ P)) as F. apply (good_exchange s _ u i (set_parameter k v def i) I (change_leaf (set_parameter k v def) s u i I P)); [intros _; exact B|exact F|auto|reflexivity].
  - destruct (s_tree s) as [id i [l|]] eqn:E; [|apply good_same, I]. apply (good_create s id i l I E).
  - apply SEL. intros u Hu. unfold is_root. destruct (Nat.eqb_spec (n_id (s_tree s)) u) as [R|R]; [apply good_reset', I|]. destruct (in_used u s) eqn:E; [apply good_same, I|]. destruct (sel_leaf s u I Hu) as [i [P B]]. apply (good_remove s u i I P); [congruence|exact E].
  - apply good_reset, I.
  - apply good_reset', I.
Qed.
Lemma good_steps s ops : Inv s -> good s (steps uses s ops).
Proof.
  intros I. unfold steps. induction ops as [|ops o IH] using rev_ind_snoc; [apply good_same, I|]. rewrite fold_left_snoc. apply (good_trans _ _ _ IH), good_step, IH.
Qed.
Lemma inv_reached t s : valid t -> reached uses t s -> Inv s.
Proof. intros V [d [s0 [ops [E ->]]]]. apply good_steps. apply (inv_open d t s0 V E). Qed.
End Inv.

(* Rounding *)
Lemma nearest_round q : nearest q (round q).
Proof.
  unfold nearest, round. pose proof (Qfloor_le (q + (1 # 2))) as A. pose proof (Qlt_floor (q + (1 # 2))) as B. rewrite inject_Z_plus in B. set (z := Qfloor (q + (1 # 2))) in *. split.
  - apply (Qplus_le_l _ _ (1 # 2)). setoid_replace (inject_Z z - (1 # 2) + (1 # 2))%Q with (inject_Z z) by ring. exact A.
  - apply (Qplus_lt_l _ _ (1 # 2)). setoid_replace (inject_Z z + (1 # 2) + (1 # 2))%Q with (inject_Z z + inject_Z 1)%Q by (change (inject_Z 1) with 1%Q; ring). exact B.
Qed.
Lemma round_Z z : round (inject_Z z) = z.
Proof.
  unfold round. unfold Qfloor, inject_Z, Qplus. cbn [Qnum Qden]. rewrite Z.mul_1_r. change (Z.pos (1 * 2)) with 2. replace (z * 2 + 1) with (1 + z * 2) by ring. rewrite Z.div_add by lia. reflexivity.
Qed.
Lemma nearest_unique q a b : nearest q a -> nearest q b -> a = b.
Proof.
  unfold nearest. intros [A1 A2] [B1 B2].
  assert (forall x y, (inject_Z x - (1 # 2) <= q)%Q -> (q < inject_Z y + (1 # 2))%Q -> x <= y) as Q.
  { intros x y H1 H2. pose proof (Qle_lt_trans _ _ _ H1 H2) as H. apply (Qplus_lt_l _ _ (1 # 2)) in H. setoid_replace (inject_Z x - (1 # 2) + (1 # 2))%Q with (inject_Z x) in H by ring. setoid_replace (inject_Z y + (1 # 2) + (1 # 2))%Q with (inject_Z (y + 1)) in H by (rewrite inject_Z_plus; change (inject_Z 1) with 1%Q; ring). rewrite <- Zlt_Qlt in H. lia. }
  pose proof (Q a b A1 B2). pose proof (Q b a B1 A2). lia.
Qed.
Lemma write_size z : value (write (at_least_1 (Some (inject_Z z)))) = Some (Z.max 1 z).
Proof.
  cbn [at_least_1]. destruct (Qle_bool 1 (inject_Z z)) eqn:E.
  - cbn [write value]. rewrite round_Z. f_equal. apply Qle_bool_iff in E. change 1%Q with (inject_Z 1) in E. rewrite <- Zle_Qle in E. lia.
  - cbn [write value]. change 1%Q with (inject_Z 1). rewrite round_Z. f_equal. destruct (Z_lt_le_dec z 1); [lia|]. rewrite Zle_Qle in l. change (inject_Z 1) with 1%Q in l. apply Qle_bool_iff in l. congruence.
Qed.
Lemma write_pos q : exists z, value (write (at_least_1 (Some q))) = Some z /\ 1 <= z /\ ((1 <= q)%Q -> nearest q z).
Proof.
  cbn [at_least_1]. destruct (Qle_bool 1 q) eqn:E; cbn [write value].
  - exists (round q). split; [reflexivity|]. split; [|intros _; apply nearest_round]. apply Qle_bool_iff in E. destruct (nearest_round q) as [_ B]. pose proof (Qle_lt_trans _ _ _ E B) as H. destruct (Z_le_gt_dec 1 (round q)) as [L|G]; [exact L|]. exfalso.
    assert (inject_Z (round q) <= 0)%Q as W by (change 0%Q with (inject_Z 0); rewrite <- Zle_Qle; lia). apply (Qlt_irrefl 1). apply (Qlt_le_trans _ _ _ H). apply (Qle_trans _ (0 + (1 # 2))); [apply Qplus_le_compat; [exact W|apply Qle_refl]|discriminate].
  - exists 1. split; [reflexivity|]. split; [lia|]. intros W. apply Qle_bool_iff in W. congruence.
Qed.
Lemma can_select_editable t : editable t = true <-> can_select t.
Proof.
  unfold editable, is_dot, can_select. cbn [In]. destruct (String.eqb_spec t "DisplayLabel") as [E|E], (String.eqb_spec t "BidirectionalProtocolState") as [F|F], (String.eqb_spec t "TunerDisplay") as [G|G]; cbn; split; intros H; try reflexivity; try discriminate H; try (left; congruence); try (right; left; congruence); try (right; right; left; congruence).
  destruct H as [H|[H|[H|[]]]]; congruence.
Qed.
Lemma has_size_resizable t : resizable t = true <-> has_size t.
Proof.
  unfold resizable, has_size. cbn [In]. destruct (String.eqb_spec t "DisplayLabel") as [E|E], (String.eqb_spec t "TunerDisplay") as [G|G]; cbn; split; intros H; try reflexivity; try discriminate H; try (left; congruence); try (right; left; congruence).
  destruct H as [H|[H|[]]]; congruence.
Qed.
Lemma at_with i x y w h f : at_ i x y w h -> forall x' y' w' h', (forall b, num (b_x b) = Some (inject_Z x) -> num (b_y b) = Some (inject_Z y) -> num (b_w b) = Some (inject_Z w) -> num (b_h b) = Some (inject_Z h) ->
   value (b_x (f b)) = Some x' /\ value (b_y (f b)) = Some y' /\ value (b_w (f b)) = Some w' /\ value (b_h (f b)) = Some h') -> at_ (with_bounds f i) x' y' w' h'.
Proof.
  intros [b [E [X [Y [W Hh]]]]] x' y' w' h' H. exists (f b). unfold with_bounds. rewrite E. split; [reflexivity|]. apply H; unfold num; [rewrite X|rewrite Y|rewrite W|rewrite Hh]; reflexivity.
Qed.
Lemma same_with f i : same_but_bounds i (with_bounds f i).
Proof. unfold with_bounds, same_but_bounds. destruct (i_bounds i); auto. Qed.
Lemma same_alike n : forall m, same n m = true -> alike n m.
Proof.
  induction n as [id i|id i l IH] using node_ind'; intros [id' j [l'|]]; cbn [same]; try (rewrite andb_false_r; discriminate).
  - destruct (info_eq_dec i j) as [<-|]; [constructor|discriminate].
  - destruct (info_eq_dec i j) as [<-|]; [|discriminate]. cbn [andb]. intros H. constructor. revert l' H. induction IH as [|x l Hx _ IHl]; intros [|y l'] H; try discriminate H; [constructor|]. apply andb_true_iff in H. destruct H as [H1 H2]. constructor; [apply Hx, H1|apply IHl, H2].
Qed.
Lemma alike_same n : forall m, alike n m -> same n m = true.
Proof.
  induction n as [id i|id i l IH] using node_ind'; intros m H; inversion H as [? ? ? E1 E2|? ? ? ? l' F E1 E2]; subst; cbn [same].
  - destruct (info_eq_dec i i); [reflexivity|congruence].
  - destruct (info_eq_dec i i); [|congruence]. cbn [andb]. clear H. revert l' F. induction IH as [|x l Hx _ IHl]; intros l' F; inversion F as [|? y ? l'' A B]; subst; [reflexivity|]. rewrite (Hx _ A). apply (IHl _ B).
Qed.

(* Names *)
Lemma allowed_chars c : allowed c = letter c || digit c.
Proof. unfold allowed, letter, digit. destruct ((97 <=? _) && _), ((65 <=? _) && _), ((48 <=? _) && _), (_ =? 95); reflexivity. Qed.
Lemma replaced_ok s : all_chars (fun c => letter c || digit c) (replaced_chars s) = true.
Proof.
  induction s as [|c s IH]; [reflexivity|]. cbn [replaced_chars all_chars]. rewrite IH, andb_true_r. destruct (allowed c) eqn:E; [rewrite <- allowed_chars; exact E|reflexivity].
Qed.
Lemma underscores_ok f s : all_chars f s = true -> all_chars f (no_underscores s) = true.
Proof. induction s as [|c s IH]; [reflexivity|]. cbn [no_underscores]. destruct (Ascii.eqb c "_"); [|auto]. cbn [all_chars]. intros H. apply andb_true_iff in H. apply IH, H. Qed.
Lemma clean_chars s : all_chars (fun c => letter c || digit c) (clean s) = true.
Proof. apply underscores_ok, replaced_ok. Qed.
Lemma replaced_id s : all_chars (fun c => letter c || digit c) s = true -> replaced_chars s = s.
Proof. induction s as [|c s IH]; [reflexivity|]. cbn [replaced_chars all_chars]. rewrite <- allowed_chars. intros H. apply andb_true_iff in H. destruct H as [-> H]. rewrite (IH H). reflexivity. Qed.
Lemma clean_same s : identifier s = true -> letter_first s = true -> clean s = s.
Proof.
  intros H L. unfold clean. rewrite replaced_id.
  - destruct s as [|c s]; [reflexivity|]. cbn [letter_first no_underscores] in *. destruct (Ascii.eqb c "_"); [discriminate L|reflexivity].
  - destruct s as [|c s]; [reflexivity|]. cbn [identifier all_chars] in *. apply andb_true_iff in H. destruct H as [-> ->]. reflexivity.
Qed.
Lemma argument_removed k l : argument k (filter (fun x => negb (String.eqb (fst x) k)) l) = None.
Proof. induction l as [|[k' v] l IH]; [reflexivity|]. cbn [filter fst]. destruct (String.eqb_spec k' k) as [E|E]; cbn [negb]; [exact IH|]. cbn [argument]. destruct (string_dec k' k); [congruence|exact IH]. Qed.
Lemma argument_removed_other k l k' : k' <> k -> argument k' (filter (fun x => negb (String.eqb (fst x) k)) l) = argument k' l.
Proof. intros N. induction l as [|[j v] l IH]; [reflexivity|]. cbn [filter fst argument]. destruct (String.eqb_spec j k) as [E|E]; cbn [negb argument]; destruct (string_dec j k'); try congruence. Qed.
Lemma argument_put k v l : argument k (put_arg k v l) = Some v.
Proof. induction l as [|[j w] l IH]; cbn [put_arg argument]; [destruct (string_dec k k); [reflexivity|congruence]|]. destruct (String.eqb_spec j k) as [E|E]; cbn [argument]; destruct (string_dec j k); congruence. Qed.
Lemma argument_put_other k v l k' : k' <> k -> argument k' (put_arg k v l) = argument k' l.
Proof. intros N. induction l as [|[j w] l IH]; cbn [put_arg argument]; [destruct (string_dec k k'); [congruence|reflexivity]|]. destruct (String.eqb_spec j k) as [E|E]; cbn [argument]; destruct (string_dec j k'); congruence. Qed.
Lemma valid_by t : NoDup (ids t) -> forallb (fun m => match m with N _ i cs => negb (editable (i_type i)) || (some (i_bounds i) && negb (some cs)) end) (flatten t) = true -> valid t.
Proof.
  intros N H. split; [exact N|]. intros id i cs P C. apply can_select_editable in C. apply in_flatten in P. rewrite forallb_forall in H. specialize (H _ P). cbn in H. rewrite C in H. cbn in H. apply andb_true_iff in H. destruct H as [A B]. destruct (i_bounds i), cs; try discriminate; split; congruence.
Qed.
