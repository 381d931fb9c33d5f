From Verif.Lib Require Import Base.
From Verif.Model Require Import Layout.
From Verif.Spec Require Import Layout.

Lemma cut_top b a p r : remove_from_top b a = (p, r) -> 0 <= a <= bh b -> make_up p r b.
Proof. intros [= <- <-] H. unfold make_up, disjoint, covers. cbn. split; intros; lia. Qed.
Lemma cut_bottom b a p r : remove_from_bottom b a = (p, r) -> 0 <= a <= bh b -> make_up p r b.
Proof. intros [= <- <-] H. unfold make_up, disjoint, covers. cbn. split; intros; lia. Qed.
Lemma cut_left b a p r : remove_from_left b a = (p, r) -> 0 <= a <= bw b -> make_up p r b.
Proof. intros [= <- <-] H. unfold make_up, disjoint, covers. cbn. split; intros; lia. Qed.
Lemma cut_right b a p r : remove_from_right b a = (p, r) -> 0 <= a <= bw b -> make_up p r b.
Proof. intros [= <- <-] H. unfold make_up, disjoint, covers. cbn. split; intros; lia. Qed.

(* place, with the inner loop as a separate function *)
Fixpoint place_list (v : bool) (b : bounds) (n i : Z) (l : list (option elem)) : list (option elem) :=
  match l with
  | [] => []
  | None :: l' => None :: place_list v b n i l'
  | Some c :: l' => Some (place (slot v b n i) c) :: place_list v b n (i + 1) l'
  end.
Lemma place_split b v b0 ch : place b (Split v b0 ch) = Split v b (place_list v b (active ch) 0 ch).
Proof.
  cbn [place]. f_equal. generalize (active ch) as n. generalize 0 as i. induction ch as [|[c|] ch IH]; intros i n; cbn [place_list]; [reflexivity|..]; f_equal; apply IH.
Qed.

(* induction over trees *)
Lemma elem_ind' (P : elem -> Prop) : (forall b, P (Leaf b)) ->
  (forall v b ch, (forall c, In (Some c) ch -> P c) -> P (Split v b ch)) -> forall e, P e.
Proof.
  intros HL HS. fix IH 1. intros [b|v b ch]; [apply HL|]. apply HS.
  induction ch as [|[d|] ch IHl]; [intros c []|..].
  - pose proof (IH d) as Hd. intros c [E|I]; [injection E as <-; exact Hd|apply IHl; exact I].
  - intros c [E|I]; [discriminate|apply IHl; exact I].
Qed.

Lemma active_nonneg {A} (l : list (option A)) : 0 <= active l.
Proof. unfold active. lia. Qed.
Lemma active_cons {A} (o : option A) l : active (o :: l) = (match o with Some _ => 1 | None => 0 end) + active l.
Proof. unfold active. cbn [filter]. destruct o; cbn [length]; lia. Qed.
Lemma active_place v b n l : forall i, active (place_list v b n i l) = active l.
Proof. induction l as [|[c|] l IH]; intros i; cbn [place_list]; [reflexivity|..]; rewrite !active_cons, IH; reflexivity. Qed.

(* slots *)
Lemma slot_inside v b n i : 0 <= bw b -> 0 <= bh b -> 0 <= i < n -> inside (slot v b n i) b.
Proof.
  intros W H I. unfold inside, covers, slot. intros x y. destruct v; cbn.
  - pose proof (Z.mul_quot_le (bh b) n H ltac:(lia)). assert (0 <= Z.quot (bh b) n) by (apply Z.quot_pos; lia). nia.
  - pose proof (Z.mul_quot_le (bw b) n W ltac:(lia)). assert (0 <= Z.quot (bw b) n) by (apply Z.quot_pos; lia). nia.
Qed.
Lemma slot_size v b n i : 0 <= bw b -> 0 <= bh b -> 0 < n -> 0 <= bw (slot v b n i) /\ 0 <= bh (slot v b n i).
Proof.
  intros W H I. unfold slot. destruct v; cbn; split; try assumption; apply Z.quot_pos; lia.
Qed.
Lemma slot_disjoint v b n i j : 0 <= bw b -> 0 <= bh b -> 0 < n -> i < j -> disjoint (slot v b n i) (slot v b n j).
Proof.
  intros W H N L. unfold disjoint, covers, slot. intros x y. destruct v; cbn; intros [[A1 A2] [B1 B2]].
  - assert (0 <= Z.quot (bh b) n) by (apply Z.quot_pos; lia). nia.
  - assert (0 <= Z.quot (bw b) n) by (apply Z.quot_pos; lia). nia.
Qed.
Lemma inside_trans a b c : inside a b -> inside b c -> inside a c.
Proof. unfold inside. auto. Qed.
Lemma disjoint_inside a b a' b' : disjoint a b -> inside a' a -> inside b' b -> disjoint a' b'.
Proof. unfold disjoint, inside. intros D A B x y [Ha Hb]. apply (D x y). split; [apply A|apply B]; assumption. Qed.

Lemma fop_app {A} (R : A -> A -> Prop) l1 l2 : ForallOrdPairs R l1 -> ForallOrdPairs R l2 -> (forall a b, In a l1 -> In b l2 -> R a b) ->
  ForallOrdPairs R (l1 ++ l2).
Proof.
  intros H1 H2 H. induction H1 as [|a l F1 F IH]; [exact H2|]. cbn. constructor.
  - apply Forall_app. split; [exact F1|]. apply Forall_forall. intros b Hb. apply H; [left; reflexivity|exact Hb].
  - apply IH. intros x y Hx Hy. apply H; [right; exact Hx|exact Hy].
Qed.

Definition leaves_list (l : list (option elem)) : list bounds := flat_map (fun o => match o with Some c => leaves c | None => [] end) l.

Lemma place_ok e : forall b, 0 <= bw b -> 0 <= bh b -> all_disjoint (leaves (place b e)) /\ Forall (fun a => inside a b) (leaves (place b e)).
Proof.
  induction e as [b0|v b0 ch IH] using elem_ind'; intros b W H.
  - cbn. split; [repeat constructor|]. constructor; [unfold inside; auto|constructor].
  - rewrite place_split. cbn [leaves]. fold (leaves_list (place_list v b (active ch) 0 ch)).
    destruct (Z.eq_dec (active ch) 0) as [Z0|Z0].
    { assert (E : forall i l, active l = 0 -> leaves_list (place_list v b (active ch) i l) = []).
      { intros i l. revert i. induction l as [|[c|] l IHl]; intros i A; [reflexivity|rewrite active_cons in A; pose proof (active_nonneg l); lia|].
        cbn. apply IHl. rewrite active_cons in A. lia. }
      rewrite E by assumption. split; constructor. }
    assert (N : 0 < active ch) by (pose proof (active_nonneg ch); lia).
    assert (G : forall l i, (forall c, In (Some c) l -> In (Some c) ch) -> 0 <= i -> i + active l <= active ch ->
      all_disjoint (leaves_list (place_list v b (active ch) i l)) /\
      Forall (fun a => exists j, i <= j < i + active l /\ inside a (slot v b (active ch) j)) (leaves_list (place_list v b (active ch) i l))).
    { induction l as [|[c|] l IHl]; intros i S I L; rewrite ?active_cons in L; cbn [place_list].
      - split; constructor.
      - cbn [leaves_list flat_map]. fold (leaves_list (place_list v b (active ch) (i + 1) l)).
        destruct (slot_size v b (active ch) i W H N) as [W1 H1].
        destruct (IH c (S c (or_introl eq_refl)) (slot v b (active ch) i) W1 H1) as [D1 I1].
        destruct (IHl (i + 1)) as [D2 I2]; [intros x Hx; apply S; right; exact Hx|lia|lia|].
        rewrite active_cons. split.
        + apply fop_app; try assumption. intros p q Hp Hq. rewrite Forall_forall in I1, I2. destruct (I2 q Hq) as (j & J1 & J2).
          apply (disjoint_inside _ _ _ _ (slot_disjoint v b (active ch) i j W H N ltac:(lia)) (I1 p Hp) J2).
        + apply Forall_app. split.
          * revert I1. apply Forall_impl. intros p Hp. exists i. split; [pose proof (active_nonneg l); lia|exact Hp].
          * revert I2. apply Forall_impl. intros p (j & J1 & J2). exists j. split; [lia|exact J2].
      - cbn [leaves_list flat_map app]. rewrite active_cons, Z.add_0_l. apply IHl; [intros x Hx; apply S; right; exact Hx|lia|lia]. }
    destruct (G ch 0 (fun c Hc => Hc) ltac:(lia) ltac:(lia)) as [G1 G2]. split; [exact G1|].
    revert G2. apply Forall_impl. intros a (j & J1 & J2). apply (inside_trans _ _ _ J2). apply slot_inside; lia.
Qed.

(* adding keeps the tree laid out *)
Lemma place_idem e : forall b b', place b (place b' e) = place b e.
Proof.
  induction e as [b0|v b0 ch IH] using elem_ind'; intros b b'; [reflexivity|].
  rewrite place_split, !place_split, active_place. f_equal.
  generalize (active ch) as n. intros n. generalize 0 as i.
  assert (S : forall c, In (Some c) ch -> forall b b', place b (place b' c) = place b c) by exact IH.
  clear IH. induction ch as [|[c|] ch IHl]; intros i; cbn [place_list]; [reflexivity|..]; f_equal.
  - f_equal. apply S. left. reflexivity.
  - apply IHl. intros x Hx. apply S. right. exact Hx.
  - apply IHl. intros x Hx. apply S. right. exact Hx.
Qed.
Lemma place_bounds b e : elem_bounds (place b e) = b.
Proof. destruct e; reflexivity. Qed.

Fixpoint add_list (path : list nat) (child : elem) (k : nat) (l : list (option elem)) : list (option elem) :=
  match l with
  | [] => []
  | o :: l' => match k with
               | O => match o with Some c => Some (add_at path child c) | None => None end :: l'
               | S k' => o :: add_list path child k' l'
               end
  end.
Lemma add_at_cons i path child v b ch : add_at (i :: path) child (Split v b ch) = Split v b (add_list path child i ch).
Proof.
  cbn [add_at]. f_equal. revert i. induction ch as [|o ch IH]; intros [|i]; cbn [add_list]; try reflexivity. f_equal. apply IH.
Qed.
Lemma active_add path child : forall k l, active (add_list path child k l) = active l.
Proof.
  intros k l. revert k. induction l as [|o l IH]; intros [|k]; cbn [add_list]; try reflexivity.
  - rewrite !active_cons. destruct o; reflexivity.
  - rewrite !active_cons, IH. reflexivity.
Qed.

(* a laid out element: placing it again at its own bounds changes nothing *)
Definition laid_out (e : elem) : Prop := place (elem_bounds e) e = e.
Lemma laid_out_place b e : laid_out (place b e).
Proof. unfold laid_out. rewrite place_bounds. apply place_idem. Qed.

Lemma add_laid_out path child : forall e, laid_out e -> laid_out (add_at path child e) /\ elem_bounds (add_at path child e) = elem_bounds e.
Proof.
  induction path as [|k path IHp]; intros e L.
  - destruct e as [b|v b ch]; [split; [exact L|reflexivity]|]. cbn [add_at update_bounds]. split; [apply laid_out_place|reflexivity].
  - destruct e as [b|v b ch]; [split; [exact L|reflexivity]|]. rewrite add_at_cons. split; [|reflexivity].
    unfold laid_out in *. cbn [elem_bounds] in *. rewrite place_split in *. rewrite active_add. injection L as L. f_equal.
    revert L. generalize (active ch) as n. intros n. generalize 0 as i. revert k.
    induction ch as [|[c|] ch IHl]; intros [|k] i L; cbn [add_list place_list] in *; try reflexivity; try congruence.
    + injection L as L1 L2. rewrite L2. f_equal. f_equal.
      assert (LC : laid_out c) by (rewrite <- L1; apply laid_out_place). destruct (IHp c LC) as [A1 A2].
      unfold laid_out in A1. rewrite A2 in A1. rewrite <- L1 in A1 at 1. rewrite place_bounds in A1. exact A1.
    + injection L as L1 L2. rewrite L1. f_equal. apply IHl. exact L2.
    + injection L as L2. f_equal. apply IHl. exact L2.
Qed.

Lemma build_laid_out v b adds : laid_out (build v b adds) /\ elem_bounds (build v b adds) = b.
Proof.
  unfold build. induction adds as [|adds a IH] using rev_ind_snoc; [split; reflexivity|].
  rewrite fold_left_snoc. destruct IH as [I1 I2]. destruct (add_laid_out (fst a) (snd a) _ I1) as [A1 A2]. split; [exact A1|].
  rewrite A2. exact I2.
Qed.
Lemma build_disjoint v b adds : 0 <= bw b -> 0 <= bh b ->
  all_disjoint (leaves (build v b adds)) /\ Forall (fun a => inside a b) (leaves (build v b adds)).
Proof.
  intros W H. destruct (build_laid_out v b adds) as [L E]. unfold laid_out in L. rewrite E in L. rewrite <- L. apply place_ok; assumption.
Qed.

Lemma place_leaves v b n : forall cs i, leaves_list (place_list v b n i (map (fun c => Some (Leaf c)) cs)) = map (fun k => slot v b n (i + Z.of_nat k)) (seq 0 (length cs)).
Proof.
  induction cs as [|c cs IH]; intros i; [reflexivity|]. cbn [map place_list leaves_list flat_map place leaves app length seq].
  f_equal; [f_equal; lia|]. fold (leaves_list (place_list v b n (i + 1) (map (fun c => Some (Leaf c)) cs))).
  rewrite IH, <- seq_shift, map_map. apply map_ext. intros k. f_equal. lia.
Qed.
Lemma place_list_leaf v b n : forall cs i, exists cs', place_list v b n i (map (fun c => Some (Leaf c)) cs) = map (fun c => Some (Leaf c)) cs' /\ length cs' = length cs.
Proof.
  induction cs as [|c cs IH]; intros i; [exists []; split; reflexivity|]. cbn [map place_list place].
  destruct (IH (i + 1)) as (cs' & E & L). exists (slot v b n i :: cs'). cbn [map length]. rewrite E, L. split; reflexivity.
Qed.
Lemma active_some {A} (l : list A) : active (map Some l) = Z.of_nat (length l).
Proof. induction l as [|x l IH]; [reflexivity|]. cbn [map]. rewrite active_cons, IH. cbn [length]. lia. Qed.
Lemma build_leaves v b cs : exists cs', build v b (map (fun c => ([], Leaf c)) cs) = place b (Split v b (map (fun c => Some (Leaf c)) cs')) /\ length cs' = length cs.
Proof.
  induction cs as [|cs c IH] using rev_ind_snoc; [exists []; split; reflexivity|].
  destruct IH as (cs' & E & L). unfold build in *. rewrite map_app, fold_left_app. cbn [map fold_left fst snd]. rewrite E, place_split. cbn [add_at update_bounds].
  destruct (place_list_leaf v b (active (map (fun c => Some (Leaf c)) cs')) cs' 0) as (cs2 & E2 & L2). rewrite E2.
  exists (cs2 ++ [c]). rewrite map_app. split; [reflexivity|]. rewrite !app_length. cbn. lia.
Qed.
Lemma split_children v b cs : let n := Z.of_nat (length cs) in
  leaves (build v b (map (fun c => ([], Leaf c)) cs))
  = map (fun k => if v then mkBounds (bx b) (by_ b + Z.of_nat k * Z.quot (bh b) n) (bw b) (Z.quot (bh b) n)
                  else mkBounds (bx b + Z.of_nat k * Z.quot (bw b) n) (by_ b) (Z.quot (bw b) n) (bh b)) (seq 0 (length cs)).
Proof.
  cbn zeta. destruct (build_leaves v b cs) as (cs' & E & L). rewrite E, place_split. cbn [leaves].
  change (flat_map _ ?l) with (leaves_list l). rewrite place_leaves, L.
  replace (active (map (fun c => Some (Leaf c)) cs')) with (Z.of_nat (length cs)).
  - apply map_ext. intros k. rewrite Z.add_0_l. unfold slot. destruct v; reflexivity.
  - rewrite <- L, <- (map_map Leaf Some), active_some, map_length. reflexivity.
Qed.
