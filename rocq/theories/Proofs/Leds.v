From Coq Require Import QArith.
From Verif.Lib Require Import Base.
From Verif.Model Require Import Midi Leds.
From Verif.Spec Require Import Leds.
Open Scope Z_scope.

Lemma index_among_nth a l i : index_among a l = Some i -> exists b, nth_error l i = Some b /\ la_id b = la_id a.
Proof.
  revert i. induction l as [|b l IH]; intros i H; [discriminate|]. cbn in H.
  destruct (la_id b =? la_id a) eqn:E.
  - inv H. exists b. split; auto. lia.
  - destruct (index_among a l); [|discriminate]. inv H. apply IH. reflexivity.
Qed.

Lemma index_among_at l1 a l2 : NoDup (map la_id (l1 ++ a :: l2)) -> index_among a (l1 ++ a :: l2) = Some (length l1).
Proof.
  induction l1 as [|b l1 IH]; intros Hd; cbn.
  - rewrite Z.eqb_refl. reflexivity.
  - cbn in Hd. inv Hd. destruct (la_id b =? la_id a) eqn:E.
    + exfalso. apply H1. rewrite map_app. apply in_or_app. right. left. lia.
    + rewrite IH; auto.
Qed.

Definition seg_of (n : nat) (l : list led_action) (a : led_action) : list nat :=
  match led_segments n l a with Some s => s | None => [] end.

(* Segment of the k-th LED user. *)
Definition kth (n u k : nat) : list nat :=
  if (u =? 1)%nat then seq 0 n
  else if (u <? n)%nat then
    if (k =? 0)%nat then seq 0 (n - u + 1) else [(n - u + 1 + k - 1)%nat]
  else if (k <? n)%nat then [k] else [].

Lemma kth_partition n u : (0 < u)%nat -> flat_map (kth n u) (seq 0 u) = seq 0 n.
Proof.
  intros Hu. unfold kth. destruct (u =? 1)%nat eqn:E1.
  - apply Nat.eqb_eq in E1. subst. cbn. apply app_nil_r.
  - apply Nat.eqb_neq in E1. destruct (u <? n)%nat eqn:E2.
    + apply Nat.ltb_lt in E2. destruct u as [|u]; [lia|]. cbn [seq flat_map Nat.eqb].
      set (f := (n - S u + 1)%nat).
      assert (forall a m, flat_map (fun k => if (k =? 0)%nat then seq 0 f else [(f + k - 1)%nat]) (seq (S a) m)
                          = seq (f + a) m) as H.
      { intros a m. revert a. induction m as [|m IH]; intros a; cbn; auto. rewrite IH.
        replace (f + S a - 1)%nat with (f + a)%nat by lia. replace (f + S a)%nat with (S (f + a)) by lia. reflexivity. }
      rewrite H. rewrite Nat.add_0_r.
      replace n with (f + u)%nat by lia. rewrite seq_app. reflexivity.
    + apply Nat.ltb_ge in E2.
      assert (forall a m, (a + m >= n)%nat -> flat_map (fun k => if (k <? n)%nat then [k] else []) (seq a m) = seq a (n - a)) as H.
      { intros a m. revert a. induction m as [|m IH]; intros a Ha.
        - replace (n - a)%nat with 0%nat by lia. reflexivity.
        - cbn [seq flat_map]. rewrite IH by lia. destruct (a <? n)%nat eqn:E.
          + apply Nat.ltb_lt in E. replace (n - a)%nat with (S (n - S a)) by lia. reflexivity.
          + apply Nat.ltb_ge in E. replace (n - a)%nat with 0%nat by lia.
            replace (n - S a)%nat with 0%nat by lia. reflexivity. }
      rewrite H by lia. f_equal. lia.
Qed.

Lemma led_segments_kth n l l1 a l2 :
  led_users l = l1 ++ a :: l2 -> NoDup (map la_id (led_users l)) ->
  led_segments n l a = Some (kth n (length (led_users l)) (length l1)).
Proof.
  intros Hu Hd. assert (la_uses a && la_enabled a = true) as Ha.
  { assert (In a (led_users l)) by (rewrite Hu; apply in_or_app; right; left; auto).
    unfold led_users in H. apply filter_In in H. tauto. }
  apply andb_true_iff in Ha. destruct Ha as [Ha1 Ha2].
  unfold led_segments. rewrite Ha1, Ha2. cbn [negb orb]. rewrite !orb_false_r.
  assert (Hix : index_among a (led_users l) = Some (length l1)).
  { rewrite Hu in *. apply index_among_at; auto. }
  rewrite Hix. unfold kth. destruct (n =? 0)%nat eqn:E0.
  - apply Nat.eqb_eq in E0. subst n. destruct (length (led_users l) =? 1)%nat; auto.
  - repeat match goal with |- context [if ?b then _ else _] => destruct b end; reflexivity.
Qed.

Lemma partition n l : NoDup (map la_id (led_users l)) -> led_users l <> [] ->
  flat_map (seg_of n l) (led_users l) = seq 0 n.
Proof.
  intros Hd Hne.
  assert (forall l1 l2, led_users l = l1 ++ l2 ->
            flat_map (seg_of n l) l2 = flat_map (kth n (length (led_users l))) (seq (length l1) (length l2))) as H.
  { intros l1 l2. revert l1. induction l2 as [|a l2 IH]; intros l1 He; [reflexivity|].
    cbn [flat_map length seq]. rewrite (IH (l1 ++ [a])) by (rewrite He, <- app_assoc; reflexivity).
    rewrite app_length. cbn [length]. rewrite Nat.add_1_r. f_equal.
    unfold seg_of. rewrite (led_segments_kth n l l1 a l2 He Hd). reflexivity. }
  rewrite (H [] (led_users l) eq_refl). cbn [length]. apply kth_partition.
  destruct (led_users l); [congruence|cbn; lia].
Qed.

Lemma no_exception n l a : In a l -> exists s, led_segments n l a = Some s.
Proof.
  intros Hin. unfold led_segments.
  destruct ((n =? 0)%nat || negb (la_uses a) || negb (la_enabled a)) eqn:E; [eauto|].
  assert (exists i, index_among a (led_users l) = Some i) as (i & ->).
  { assert (In a (led_users l)) as Hu.
    { apply filter_In. split; auto. destruct (la_uses a), (la_enabled a); cbn in E; rewrite ?orb_true_r in E; auto; discriminate. }
    clear - Hu. induction (led_users l) as [|b l' IH]; [inv Hu|]. cbn.
    destruct (la_id b =? la_id a) eqn:E; [eauto|]. destruct Hu as [->|Hu]; [rewrite Z.eqb_refl in E; discriminate|].
    destruct (IH Hu) as (i & ->). cbn. eauto. }
  repeat match goal with |- context [if ?b then _ else _] => destruct b end; eauto.
Qed.

Lemma none_for_others n l a : la_uses a && la_enabled a = false -> led_segments n l a = Some [].
Proof.
  intros H. unfold led_segments. destruct (la_uses a), (la_enabled a); try discriminate;
    cbn [negb]; rewrite ?orb_true_r; reflexivity.
Qed.

Lemma shares n l l1 a l2 :
  NoDup (map la_id (led_users l)) -> led_users l = l1 ++ a :: l2 -> (length (led_users l) <= n)%nat ->
  length (seg_of n l a) = if (length l1 =? 0)%nat then (n - length (led_users l) + 1)%nat else 1%nat.
Proof.
  intros Hd He Hn. unfold seg_of. rewrite (led_segments_kth n l l1 a l2 He Hd). unfold kth.
  assert (length (led_users l) = length l1 + S (length l2))%nat as Hl by (rewrite He, app_length; reflexivity).
  destruct (length (led_users l) =? 1)%nat eqn:E1.
  - rewrite seq_length. replace (length l1 =? 0)%nat with true by lia. lia.
  - destruct (length (led_users l) <? n)%nat eqn:E2.
    + destruct (length l1 =? 0)%nat; [rewrite seq_length; reflexivity|reflexivity].
    + replace (length l1 <? n)%nat with true by lia. destruct (length l1 =? 0)%nat eqn:E3; cbn; lia.
Qed.

(* ---- C30 ---- *)

Lemma put_length {A} n (x : A) l : length (put n x l) = length l.
Proof. revert n. induction l as [|y l IH]; intros [|n]; cbn; auto. Qed.
Lemma put_all_length {A} segs (x : A) l : length (put_all segs x l) = length l.
Proof. unfold put_all. revert l. induction segs as [|i segs IH]; intros l; cbn; auto. rewrite IH. apply put_length. Qed.
Lemma put_each_length {A} segs (xs : list A) l : length (put_each segs xs l) = length l.
Proof. revert xs l. induction segs as [|i segs IH]; intros [|x xs] l; cbn; auto. rewrite IH. apply put_length. Qed.
Lemma put_nth {A} n (x : A) l i : nth_error (put n x l) i = if (i =? n)%nat then (if (n <? length l)%nat then Some x else None) else nth_error l i.
Proof.
  revert n i. induction l as [|y l IH]; intros [|n] [|i]; cbn; auto.
  - destruct (i =? n)%nat; auto.
  - rewrite IH. change (S n <? S (length l))%nat with (n <? length l)%nat. reflexivity.
Qed.
Lemma put_all_nth {A} segs (x : A) l i : (i < length l)%nat ->
  nth_error (put_all segs x l) i = if existsb (Nat.eqb i) segs then Some x else nth_error l i.
Proof.
  unfold put_all. revert l. induction segs as [|j segs IH]; intros l Hi; cbn; auto.
  rewrite IH by (rewrite put_length; auto). destruct (existsb (Nat.eqb i) segs); [rewrite orb_true_r; auto|].
  rewrite orb_false_r, put_nth. destruct (i =? j)%nat eqn:E; auto. replace (j <? length l)%nat with true by lia. auto.
Qed.
Lemma put_each_other {A} segs (xs : list A) l i : ~ In i segs -> nth_error (put_each segs xs l) i = nth_error l i.
Proof.
  revert xs l. induction segs as [|j segs IH]; intros [|x xs] l Hn; cbn; auto.
  rewrite IH by (intros H; apply Hn; right; auto). rewrite put_nth.
  destruct (i =? j)%nat eqn:E; auto. exfalso. apply Hn. left. lia.
Qed.
Lemma put_each_nth {A} segs (xs : list A) l k i : NoDup segs -> length segs = length xs ->
  nth_error segs k = Some i -> (i < length l)%nat -> nth_error (put_each segs xs l) i = nth_error xs k.
Proof.
  revert xs l k. induction segs as [|j segs IH]; intros [|x xs] l k Hd Hlen Hk Hi; try discriminate.
  - destruct k; discriminate.
  - inv Hd. destruct k as [|k]; cbn in *.
    + inv Hk. rewrite put_each_other by auto. rewrite put_nth, Nat.eqb_refl. replace (i <? length l)%nat with true by lia. auto.
    + apply IH; auto. rewrite put_length; auto.
Qed.

Lemma switch_color_one s segs c : leds_ok s -> Forall (fun i => (i < length (px s))%nat) segs ->
  exists s', switch_color s segs (OneColor c) = Ok s' /\ px s' = px s /\ brs s' = brs s /\ leds_ok s' /\
  (forall i, In i segs -> nth_error (cols s') i = Some c) /\
  (forall i, ~ In i segs -> nth_error (cols s') i = nth_error (cols s) i).
Proof.
  intros (H1 & H2 & H3) Hs. destruct segs as [|j segs]; cbn [switch_color].
  - exists s. split; auto. split; auto. split; auto. split; [split; auto|]. split; auto. intros i [].
  - unfold set_colors. rewrite put_all_length, H1, Nat.eqb_refl. cbn [negb].
    eexists. split; [reflexivity|]. cbn [px cols brs]. split; auto. split; auto.
    split. { unfold leds_ok. cbn [px cols brs]. rewrite put_all_length. auto. }
    set (sg := j :: segs) in *. split; intros i Hi.
    + rewrite put_all_nth. 2:{ rewrite H1. rewrite Forall_forall in Hs. auto. }
      replace (existsb (Nat.eqb i) sg) with true; auto. symmetry. apply existsb_exists. exists i. split; auto. apply Nat.eqb_refl.
    + destruct (Nat.lt_ge_cases i (length (cols s))) as [Hl|Hl].
      * rewrite put_all_nth by auto. replace (existsb (Nat.eqb i) sg) with false; auto.
        symmetry. apply not_true_is_false. intros He. apply existsb_exists in He. destruct He as (k & Hk & E).
        apply Nat.eqb_eq in E. subst. auto.
      * rewrite (proj2 (nth_error_None _ _)) by (rewrite put_all_length; lia).
        symmetry. apply nth_error_None. lia.
Qed.

Lemma switch_color_frame s segs a s' : switch_color s segs a = Ok s' ->
  px s' = px s /\ brs s' = brs s /\ (forall i, ~ In i segs -> nth_error (cols s') i = nth_error (cols s) i).
Proof.
  assert (forall c i, ~ In i segs -> nth_error (put_all segs c (cols s)) i = nth_error (cols s) i) as Hall.
  { intros c i Hn. destruct (Nat.lt_ge_cases i (length (cols s))) as [Hl|Hl].
    - rewrite put_all_nth by auto. replace (existsb (Nat.eqb i) segs) with false; auto.
      symmetry. apply not_true_is_false. intros He. apply existsb_exists in He. destruct He as (k & Hk & E).
      apply Nat.eqb_eq in E. subst. auto.
    - rewrite (proj2 (nth_error_None _ _)) by (rewrite put_all_length; lia). symmetry. apply nth_error_None. lia. }
  unfold switch_color, set_colors.
  destruct segs as [|j segs]; [intros H; inv H; auto|]. set (sg := j :: segs) in *.
  destruct a as [c|[|c0 cs]]; [|discriminate|].
  - destruct (negb _); [discriminate|]. intros H. injection H as <-. cbn [px cols brs]. repeat split; auto. exact (Hall c).
  - destruct (length sg =? length (c0 :: cs))%nat; destruct (negb _); try discriminate; intros H; injection H as <-;
      cbn [px cols brs]; (split; [reflexivity|split; [reflexivity|]]).
    + intros i Hn. apply (put_each_other sg (c0 :: cs)); auto.
    + exact (Hall _).
Qed.

Lemma switch_color_many s segs cs : leds_ok s -> NoDup segs -> Forall (fun i => (i < length (px s))%nat) segs ->
  segs <> [] -> length segs = length cs ->
  exists s', switch_color s segs (ManyColors cs) = Ok s' /\
  forall k i, nth_error segs k = Some i -> nth_error (cols s') i = nth_error cs k.
Proof.
  intros (H1 & H2 & H3) Hd Hs Hne Hlen. destruct segs as [|j segs]; [congruence|]. destruct cs as [|c0 cs]; [discriminate|].
  cbn [switch_color]. rewrite Hlen, Nat.eqb_refl. unfold set_colors. rewrite put_each_length, H1, Nat.eqb_refl. cbn [negb].
  eexists. split; [reflexivity|]. cbn [cols]. intros k i Hk. apply put_each_nth; auto.
  rewrite H1. rewrite Forall_forall in Hs. apply Hs. eapply nth_error_In; eauto.
Qed.

Lemma write_all_other d ps cs bs q : ~ In q ps -> write_all d ps cs bs q = d q.
Proof.
  revert d cs bs. induction ps as [|p ps IH]; intros d [|c cs] [|b bs] Hn; cbn; auto.
  rewrite IH by (intros H; apply Hn; right; auto). unfold write.
  destruct (q =? p) eqn:E; auto. exfalso. apply Hn. left. lia.
Qed.

Lemma write_all_own d ps cs bs i p c b : NoDup ps ->
  nth_error ps i = Some p -> nth_error cs i = Some c -> nth_error bs i = Some b ->
  write_all d ps cs bs p = scale_rgb c b.
Proof.
  revert d cs bs i. induction ps as [|q ps IH]; intros d cs bs i Hd Hp Hc Hb; [destruct i; discriminate|].
  inv Hd. destruct i as [|i]; cbn in Hp.
  - inv Hp. destruct cs as [|c' cs]; [discriminate|]. destruct bs as [|b' bs]; [discriminate|].
    cbn in Hc, Hb. inv Hc. inv Hb. cbn. rewrite write_all_other by auto. unfold write. rewrite Z.eqb_refl. reflexivity.
  - destruct cs as [|c' cs]; [discriminate|]. destruct bs as [|b' bs]; [discriminate|]. cbn. eapply IH; eauto.
Qed.

Lemma switch_brightness_frame s d segs b : leds_ok s -> Forall (fun i => (i < length (px s))%nat) segs -> segs <> [] ->
  exists s' d', switch_brightness s d segs b = Ok (s', d') /\ px s' = px s /\ cols s' = cols s /\ leds_ok s' /\
  (forall i, In i segs -> nth_error (brs s') i = Some b) /\
  (forall i, ~ In i segs -> nth_error (brs s') i = nth_error (brs s) i) /\
  (forall q, ~ In q (px s) -> d' q = d q) /\
  (forall i p c br, nth_error (px s) i = Some p -> nth_error (cols s') i = Some c -> nth_error (brs s') i = Some br ->
      d' p = scale_rgb c br).
Proof.
  intros (H1 & H2 & H3) Hs Hne. destruct segs as [|j segs]; [congruence|]. set (sg := j :: segs) in *.
  assert (px s <> []) as Hpx.
  { inv Hs. intros E. rewrite E in *. cbn in *. lia. }
  unfold switch_brightness, set_brightnesses. fold sg.
  destruct (px s) as [|p0 pxs] eqn:Epx; [congruence|]. rewrite <- Epx in *.
  assert (Hl : (length (put_all sg b (brs s)) =? length (px s))%nat = true)
    by (rewrite put_all_length, H2; apply Nat.eqb_refl).
  unfold sg at 1. rewrite Hl. cbn [negb].
  eexists _, _. split; [reflexivity|]. cbn [px cols brs]. split; auto. split; auto.
  split. { unfold leds_ok. cbn [px cols brs]. rewrite put_all_length. auto. }
  split. { intros i Hi. rewrite put_all_nth. 2:{ rewrite H2. rewrite Forall_forall in Hs. auto. }
    replace (existsb (Nat.eqb i) sg) with true; auto. symmetry. apply existsb_exists. exists i. split; auto. apply Nat.eqb_refl. }
  split. { intros i Hi. destruct (Nat.lt_ge_cases i (length (brs s))) as [Hlt|Hge].
    - rewrite put_all_nth by auto. replace (existsb (Nat.eqb i) sg) with false; auto.
      symmetry. apply not_true_is_false. intros He. apply existsb_exists in He. destruct He as (k & Hk & E).
      apply Nat.eqb_eq in E. subst. auto.
    - rewrite (proj2 (nth_error_None _ _)) by (rewrite put_all_length; lia). symmetry. apply nth_error_None. lia. }
  split. { intros q Hq. apply write_all_other; auto. }
  intros i p c br Hp Hc Hb. eapply write_all_own; eauto.
Qed.

Lemma scale_range c b : component_ok c -> (0 <= b)%Q -> (b <= 1)%Q -> component_ok (scale c b).
Proof.
  unfold component_ok, scale, Qle. cbn. intros Hc H0 H1.
  rewrite Z.mul_1_r in *. set (n := Qnum b) in *. set (dn := Zpos (Qden b)) in *.
  assert (0 < dn) by (unfold dn; lia). rewrite Z.quot_div_nonneg by nia.
  split; [apply Z.div_pos; nia|]. apply Z.div_le_upper_bound; nia.
Qed.

Lemma scale_rgb_range c b : rgb_ok c -> (0 <= b)%Q -> (b <= 1)%Q -> rgb_ok (scale_rgb c b).
Proof.
  destruct c as [[r g] bl]. cbn. intros (A & B & C) H0 H1. repeat split; apply scale_range; auto.
Qed.

Lemma wrong_length_raises s d cs bs :
  (length cs <> length (px s) -> set_colors s cs = Raise) /\
  (px s <> [] -> length bs <> length (px s) -> set_brightnesses s d bs = Raise).
Proof.
  split.
  - intros H. unfold set_colors. apply Nat.eqb_neq in H. rewrite H. reflexivity.
  - intros Hp H. unfold set_brightnesses. destruct (px s); [congruence|]. apply Nat.eqb_neq in H. rewrite H. reflexivity.
Qed.

Lemma NoDup_map_filter {A B} (f : A -> B) p l : NoDup (map f l) -> NoDup (map f (filter p l)).
Proof.
  induction l as [|x l IH]; cbn; auto. intros H. inv H. destruct (p x); auto. cbn. constructor; auto.
  intros Hin. apply H2. apply in_map_iff in Hin. destruct Hin as (y & E & Hy). apply filter_In in Hy.
  apply in_map_iff. exists y. tauto.
Qed.

Lemma c29_partition n l : NoDup (map la_id l) -> (exists a, In a l /\ takes_part a = true) ->
  exists segs, Forall2 (fun a s => led_segments n l a = Some s) (filter takes_part l) segs /\ concat segs = seq 0 n.
Proof.
  intros Hd (a & Hin & Ha). exists (map (seg_of n l) (led_users l)). split.
  - change (filter takes_part l) with (led_users l).
    assert (forall x, In x (led_users l) -> In x l) as Hsub by (intros x Hx; apply filter_In in Hx; tauto).
    revert Hsub. generalize (led_users l) as us. induction us as [|x us IH]; intros Hsub; cbn; constructor.
    + destruct (no_exception n l x) as (s & E); [apply Hsub; left; auto|]. unfold seg_of. rewrite E. reflexivity.
    + apply IH. intros y Hy. apply Hsub. right. auto.
  - rewrite <- flat_map_concat_map. apply partition.
    + apply NoDup_map_filter; auto.
    + intros E. assert (In a (led_users l)) as H by (apply filter_In; auto). rewrite E in H. inv H.
Qed.

Lemma concat_NoDup_apart {A} (segs : list (list A)) i j s t x : NoDup (concat segs) ->
  nth_error segs i = Some s -> nth_error segs j = Some t -> In x s -> In x t -> i = j.
Proof.
  revert i j. induction segs as [|u segs IH]; intros i j Hd Hi Hj Hs Ht; [destruct i; discriminate|].
  cbn in Hd. assert (forall y, In y u -> ~ In y (concat segs)) as Hap.
  { intros y Hy Hc. clear - Hd Hy Hc. induction u as [|z u IH]; [inv Hy|]. cbn in Hd. inv Hd.
    destruct Hy as [->|Hy]; auto. apply H1. apply in_or_app. auto. }
  assert (NoDup (concat segs)) as Hd2.
  { clear - Hd. induction u as [|z u IH]; auto. cbn in Hd. inv Hd. auto. }
  destruct i as [|i], j as [|j]; cbn in Hi, Hj; [reflexivity| | |].
  - inv Hi. exfalso. eapply Hap; eauto. apply in_concat. exists t. split; auto. eapply nth_error_In; eauto.
  - inv Hj. exfalso. eapply Hap; eauto. apply in_concat. exists s. split; auto. eapply nth_error_In; eauto.
  - f_equal. eapply IH; eauto.
Qed.

Lemma Forall2_nth1 {A B} (P : A -> B -> Prop) l1 l2 i a :
  Forall2 P l1 l2 -> nth_error l1 i = Some a -> exists b, nth_error l2 i = Some b /\ P a b.
Proof.
  intros H. revert i. induction H; intros [|i] Hi; cbn in *; try discriminate; eauto. inv Hi. eauto.
Qed.
Lemma Forall2_nth2 {A B} (P : A -> B -> Prop) l1 l2 i b :
  Forall2 P l1 l2 -> nth_error l2 i = Some b -> exists a, nth_error l1 i = Some a /\ P a b.
Proof.
  intros H. revert i. induction H; intros [|i] Hi; cbn in *; try discriminate; eauto. inv Hi. eauto.
Qed.

Lemma c29_one_owner n l i : NoDup (map la_id l) -> (exists a, In a l /\ takes_part a = true) -> (i < n)%nat ->
  exists! a, In a l /\ exists s, led_segments n l a = Some s /\ In i s.
Proof.
  intros Hd Hex Hi. destruct (c29_partition n l Hd Hex) as (segs & HF & HC).
  assert (NoDup (concat segs)) as Hnd by (rewrite HC; apply seq_NoDup).
  assert (In i (concat segs)) as Hin by (rewrite HC; apply in_seq; lia).
  apply in_concat in Hin. destruct Hin as (s & Hs & His).
  apply In_nth_error in Hs. destruct Hs as (k & Hk). destruct (Forall2_nth2 _ _ _ _ _ HF Hk) as (a & Ha & Es).
  exists a. split.
  - split; [|eauto]. apply nth_error_In, filter_In in Ha. tauto.
  - intros b (Hb & t & Et & Hit).
    assert (takes_part b = true) as Hp.
    { destruct (takes_part b) eqn:E; auto. rewrite (none_for_others n l b E) in Et. inv Et. inv Hit. }
    assert (In b (filter takes_part l)) as Hbf by (apply filter_In; auto).
    apply In_nth_error in Hbf. destruct Hbf as (k2 & Hk2). destruct (Forall2_nth1 _ _ _ _ _ HF Hk2) as (t2 & Ht2 & E2).
    rewrite Et in E2. inv E2. pose proof (concat_NoDup_apart segs k k2 s t2 i Hnd Hk Ht2 His Hit). subst k2. congruence.
Qed.

Lemma c29_shares n l first a rest : NoDup (map la_id l) -> filter takes_part l = first ++ a :: rest ->
  (length (filter takes_part l) <= n)%nat ->
  exists s, led_segments n l a = Some s /\
    length s = if (length first =? 0)%nat then (n - length (filter takes_part l) + 1)%nat else 1%nat.
Proof.
  intros Hd He Hl. destruct (no_exception n l a) as (s & E).
  { assert (In a (filter takes_part l)) as H by (rewrite He; apply in_or_app; right; left; auto). apply filter_In in H. tauto. }
  exists s. split; auto. pose proof (shares n l first a rest (NoDup_map_filter _ _ _ Hd) He Hl) as H.
  unfold seg_of in H. rewrite E in H. exact H.
Qed.

Lemma switch_color_middle s segs cs c : leds_ok s -> Forall (fun i => (i < length (px s))%nat) segs -> segs <> [] ->
  length segs <> length cs -> nth_error cs (length cs / 2) = Some c -> switch_color s segs (ManyColors cs) = switch_color s segs (OneColor c).
Proof.
  intros _ _ Hne Hlen Hm. destruct segs as [|j segs]; [congruence|]. destruct cs as [|c0 cs]; [destruct (length (@nil rgb) / 2)%nat; discriminate|].
  cbn [switch_color]. replace (length (j :: segs) =? length (c0 :: cs))%nat with false by (symmetry; apply Nat.eqb_neq; auto).
  rewrite (nth_error_nth _ _ _ Hm). reflexivity.
Qed.
Lemma no_leds_no_change s d : (forall a, switch_color s [] a = Ok s) /\ (forall b, switch_brightness s d [] b = Ok (s, d)).
Proof. split; reflexivity. Qed.
