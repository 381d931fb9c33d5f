From Verif.Lib Require Import Base.
From Verif.Model Require Import Explore.
From Verif.Spec Require Import Explore.

Lemma init_nth hd ps : forall ports i k s, nth_error (init_switches hd ps ports i) k = Some s -> s = init_switch hd ps (i + Z.of_nat k).
Proof.
  induction ports as [|ok ports IH]; intros i k s H; [destruct k; discriminate|]. cbn [init_switches] in H. destruct ok; [|apply IH; exact H].
  destruct k as [|k]; cbn [nth_error] in H.
  - injection H as <-. f_equal. lia.
  - apply IH in H. rewrite H. f_equal. lia.
Qed.
Lemma init_length hd ps : forall ports i, (length (init_switches hd ps ports i) <= length ports)%nat.
Proof. induction ports as [|ok ports IH]; intros i; [reflexivity|]. cbn [init_switches]. destruct ok; cbn [length]; [specialize (IH (i + 1))|specialize (IH i)]; lia. Qed.

Lemma next_range n cur step : 0 < n -> 0 <= next_index n cur step < n.
Proof. intros H. unfold next_index. cbn zeta. destruct (n <=? cur + step) eqn:E1; case_if; lia. Qed.
Lemma next_up n cur : 0 < n -> 0 <= cur < n -> next_index n cur 1 = (cur + 1) mod n.
Proof.
  intros H R. unfold next_index. cbn zeta. destruct (n <=? cur + 1) eqn:E1.
  - assert (cur + 1 = n) by lia. rewrite H0, Z.mod_same by lia. reflexivity.
  - case_if; [lia|]. rewrite Z.mod_small by lia. reflexivity.
Qed.
Lemma next_down n cur : 0 < n -> 0 <= cur < n -> next_index n cur (-1) = (cur - 1) mod n.
Proof.
  intros H R. unfold next_index. cbn zeta. replace (n <=? cur + -1) with false by lia. case_if.
  - assert (cur = 0) by lia. subst. replace (0 - 1) with (n - 1 + -1 * n) by ring. rewrite Z.mod_add, Z.mod_small by lia. reflexivity.
  - rewrite Z.mod_small by lia. lia.
Qed.
Lemma step_dir hd ps k : scan_step (init_switch hd ps (Z.of_nat k)) = direction k.
Proof.
  unfold init_switch, direction. cbn [scan_step]. destruct (Nat.even k) eqn:E.
  - apply Nat.even_spec in E. destruct E as [m ->]. replace (Z.of_nat (2 * m) mod 2 =? 0) with true; [reflexivity|]. lia.
  - assert (O : Nat.odd k = true) by (unfold Nat.odd; rewrite E; reflexivity). apply Nat.odd_spec in O. destruct O as [m ->].
    replace (Z.of_nat (2 * m + 1) mod 2 =? 0) with false; [reflexivity|]. lia.
Qed.

Section Switches.
Context (hd : bool) (ps : nat) (ports : list bool).
Notation sws := (init_switches hd ps ports 0).
Notation n := (Z.of_nat (length sws)).

Lemma press_index cur k : (k < length sws)%nat -> fst (fst (press sws cur k)) = next_index n cur (direction k).
Proof.
  intros L. unfold press. destruct (nth_error sws k) as [s|] eqn:E; [|apply nth_error_None in E; lia].
  rewrite (init_nth _ _ _ _ _ _ E). rewrite Z.add_0_l, step_dir. reflexivity.
Qed.

Lemma lit_count c : forall l i, (forall k s, nth_error l k = Some s -> em_index s = i + Z.of_nat k) ->
  lit (map (fun s => em_index s =? c) l) = if (i <=? c) && (c <? i + Z.of_nat (length l)) then 1%nat else 0%nat.
Proof.
  unfold lit. induction l as [|s l IH]; intros i H; cbn [map filter length].
  - destruct ((i <=? c) && (c <? i + Z.of_nat 0)) eqn:E; [lia|reflexivity].
  - pose proof (H 0%nat s eq_refl) as H0. rewrite Z.add_0_r in H0. rewrite H0.
    assert (H1 : forall k s0, nth_error l k = Some s0 -> em_index s0 = i + 1 + Z.of_nat k).
    { intros k s0 Hk. rewrite (H (S k) s0 Hk). lia. }
    specialize (IH (i + 1) H1). destruct (i =? c) eqn:E; cbn [length]; rewrite IH.
    + replace ((i + 1 <=? c) && (c <? i + 1 + Z.of_nat (length l))) with false by lia. replace ((i <=? c) && (c <? i + Z.of_nat (S (length l)))) with true by lia. reflexivity.
    + replace ((i + 1 <=? c) && (c <? i + 1 + Z.of_nat (length l))) with ((i <=? c) && (c <? i + Z.of_nat (S (length l)))) by lia. reflexivity.
Qed.
Lemma one_lit cur k c shown px : (k < length sws)%nat -> press sws cur k = (c, shown, px) ->
  lit shown = 1%nat /\ 0 <= c < n /\ nth_error shown (Z.to_nat c) = Some true /\ px = Some (calculate_pixels hd ps c).
Proof.
  intros L E. pose proof (press_index cur k L) as P. rewrite E in P. cbn [fst] in P.
  unfold press in E. destruct (nth_error sws k) as [s|] eqn:En; [|apply nth_error_None in En; lia].
  unfold show_next in E. injection E as E1 E2 E3. assert (N : 0 < n) by lia.
  pose proof (next_range n cur (scan_step s) N) as R. rewrite E1 in *. split; [|split; [lia|split]].
  - rewrite <- E2. rewrite (lit_count c sws 0).
    + replace ((0 <=? c) && (c <? 0 + Z.of_nat (length sws))) with true by lia. reflexivity.
    + intros j s0 Hj. rewrite (init_nth _ _ _ _ _ _ Hj). reflexivity.
  - rewrite <- E2. rewrite nth_error_map. destruct (nth_error sws (Z.to_nat c)) as [s0|] eqn:Ec; [|apply nth_error_None in Ec; lia].
    rewrite (init_nth _ _ _ _ _ _ Ec). cbn [option_map em_index init_switch]. f_equal. lia.
  - rewrite <- E3. clear - R.
    assert (G : forall l i ret, (forall k s, nth_error l k = Some s -> s = init_switch hd ps (i + Z.of_nat k)) ->
      fold_left (fun ret s => if em_index s =? c then Some (pixels s) else ret) l ret
      = if (i <=? c) && (c <? i + Z.of_nat (length l)) then Some (calculate_pixels hd ps c) else ret).
    { induction l as [|s l IH]; intros i ret H; cbn [fold_left length].
      - replace ((i <=? c) && (c <? i + Z.of_nat 0)) with false by lia. reflexivity.
      - pose proof (H 0%nat s eq_refl) as ->. rewrite Z.add_0_r. cbn [em_index pixels init_switch].
        rewrite (IH (i + 1)) by (intros k s0 Hk; rewrite (H (S k) s0 Hk); f_equal; lia).
        destruct (i =? c) eqn:E.
        + assert (i = c) by lia. subst i. replace ((c + 1 <=? c) && (c <? c + 1 + Z.of_nat (length l))) with false by lia.
          replace ((c <=? c) && (c <? c + Z.of_nat (S (length l)))) with true by lia. reflexivity.
        + replace ((i + 1 <=? c) && (c <? i + 1 + Z.of_nat (length l))) with ((i <=? c) && (c <? i + Z.of_nat (S (length l)))) by lia. reflexivity. }
    rewrite (G sws 0 None) by (intros k s Hk; apply (init_nth _ _ _ _ _ _ Hk)).
    replace ((0 <=? c) && (c <? 0 + Z.of_nat (length sws))) with true by lia. reflexivity.
Qed.

Lemma presses_cyclic ks : forall cur, 0 <= cur < n -> Forall (fun k => (k < length sws)%nat) ks ->
  presses sws cur ks = (cur + fold_right Z.add 0 (map direction ks)) mod n.
Proof.
  induction ks as [|k ks IH]; intros cur R F.
  - cbn. rewrite Z.add_0_r, Z.mod_small by lia. reflexivity.
  - inversion F as [|? ? L F']; subst. cbn [presses map fold_right]. rewrite press_index by exact L.
    rewrite IH; [|apply next_range; lia|exact F'].
    assert (E : next_index n cur (direction k) = (cur + direction k) mod n).
    { unfold direction. destruct (Nat.even k); [apply next_up|rewrite next_down]; try lia. reflexivity. }
    rewrite E, Z.add_mod_idemp_l by lia. f_equal. ring.
Qed.
Lemma presses_scrolled ks : Forall (fun k => (k < length sws)%nat) ks -> presses sws (-1) ks = scrolled n ks.
Proof.
  intros F. destruct ks as [|k ks]; [reflexivity|]. inversion F as [|? ? L F']; subst. cbn [presses scrolled]. rewrite press_index by exact L.
  assert (E : next_index n (-1) (direction k) = if Nat.even k then 0 else n - 1).
  { unfold direction, next_index. cbn zeta. destruct (Nat.even k).
    - replace (n <=? -1 + 1) with false by lia. reflexivity.
    - replace (n <=? -1 + -1) with false by lia. reflexivity. }
  rewrite E. apply presses_cyclic; [destruct (Nat.even k); lia|exact F'].
Qed.

Lemma pixels_disjoint i j si sj p : nth_error sws i = Some si -> nth_error sws j = Some sj -> In p (pixels si) -> In p (pixels sj) -> i = j.
Proof.
  intros Ei Ej Pi Pj. rewrite (init_nth _ _ _ _ _ _ Ei) in Pi. rewrite (init_nth _ _ _ _ _ _ Ej) in Pj.
  cbn [pixels init_switch] in *. unfold calculate_pixels in *. destruct hd; cbn [negb] in *; [|destruct Pi].
  rewrite in_map_iff in Pi, Pj. destruct Pi as (a & <- & Ha), Pj as (b & E & Hb). rewrite in_seq in Ha, Hb. nia.
Qed.
Lemma pixels_exist i s p : nth_error sws i = Some s -> In p (pixels s) -> 0 <= p < num_leds ps ports.
Proof.
  intros E P. pose proof (init_length hd ps ports 0). assert (L : (i < length sws)%nat) by (apply nth_error_Some; congruence).
  rewrite (init_nth _ _ _ _ _ _ E) in P. cbn [pixels init_switch] in P. unfold calculate_pixels in P.
  destruct hd; cbn [negb] in P; [|destruct P]. rewrite in_map_iff in P. destruct P as (a & <- & Ha). rewrite in_seq in Ha. unfold num_leds. nia.
Qed.
End Switches.
