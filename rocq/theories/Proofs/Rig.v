From Verif.Lib Require Import Base.
From Verif.Model Require Import Midi Rig.
From Verif.Spec Require Import Rig.

Lemma bank_of_div id : 0 <= id -> bank_of id = id / 5.
Proof. intros H. unfold bank_of, NUM_RIGS_PER_BANK. apply Z.quot_div_nonneg; lia. Qed.
Lemma rig_of_mod id : rig_of id = id mod 5.
Proof. reflexivity. Qed.

Lemma react_bank d b : react d (bank_select b) = mkDevice (d_id d) (Some b).
Proof. reflexivity. Qed.
Lemma react_rig d r : 0 <= r <= 4 ->
  react d (rig_select r 1) = mkDevice (5 * (match d_pending d with Some b => b | None => d_id d / 5 end) + r) None.
Proof.
  intros H. assert (E : r = 0 \/ r = 1 \/ r = 2 \/ r = 3 \/ r = 4) by lia.
  destruct E as [-> | [-> | [-> | [-> | -> ]]]]; cbn; reflexivity.
Qed.
Lemma react_release d r : 0 <= r <= 4 -> react d (rig_select r 0) = d.
Proof.
  intros H. assert (E : r = 0 \/ r = 1 \/ r = 2 \/ r = 3 \/ r = 4) by lia.
  destruct E as [-> | [-> | [-> | [-> | -> ]]]]; reflexivity.
Qed.

(* ---- rig up / down ---- *)

Lemma next_rig_neighbour up keep id : valid_id id -> next_rig up keep id = neighbour up keep id.
Proof.
  unfold valid_id, next_rig, neighbour, rig_of, NUM_RIGS_PER_BANK, NUM_BANKS. intros H.
  destruct up, keep; repeat case_if; try lia.
Qed.

Lemma neighbour_valid up keep id : valid_id id -> valid_id (neighbour up keep id).
Proof. unfold valid_id, neighbour. intros H. destruct up, keep; repeat case_if; lia. Qed.

Lemma rig_change_messages up keep id sent sh x sh' m : valid_id id ->
  rig_change_push up keep (Some id) sent sh = (x, sh', m) ->
  let n := neighbour up keep id in
  m = if n =? id then [] else (if n / 5 =? id / 5 then [] else [CC 47 (n / 5)]) ++ [CC (50 + n mod 5) 1].
Proof.
  intros Hv. unfold rig_change_push. rewrite next_rig_neighbour by exact Hv. cbn zeta.
  pose proof (neighbour_valid up keep id Hv) as Hn. unfold valid_id in *. set (n := neighbour up keep id) in *. clearbody n.
  destruct (n =? id); intros E; injection E as <- <- <-; [reflexivity|].
  rewrite !bank_of_div by lia. destruct (n / 5 =? id / 5); reflexivity.
Qed.

Lemma rig_change_device up keep id sent sh x sh' m : valid_id id ->
  rig_change_push up keep (Some id) sent sh = (x, sh', m) ->
  react_all (mkDevice id None) m = mkDevice (neighbour up keep id) None.
Proof.
  intros Hv E. rewrite (rig_change_messages _ _ _ _ _ _ _ _ Hv E). pose proof (neighbour_valid up keep id Hv) as Hn. unfold valid_id in *.
  set (n := neighbour up keep id) in *. clearbody n. clear E. unfold react_all. destruct (n =? id) eqn:E1; [cbn; f_equal; lia|].
  pose proof (Z.mod_pos_bound n 5 ltac:(lia)) as B. fold (rig_select (n mod 5) 1). destruct (n / 5 =? id / 5) eqn:E2; cbn [app fold_left].
  - rewrite react_rig by lia. cbn [d_pending d_id]. f_equal. lia.
  - fold (bank_select (n / 5)). rewrite react_bank, react_rig by lia. cbn [d_pending d_id]. f_equal. lia.
Qed.

Lemma up_down_back id : valid_id id -> neighbour false false (neighbour true false id) = id /\ neighbour true false (neighbour false false id) = id.
Proof. unfold valid_id, neighbour. lia. Qed.

Lemma up_down_keep id : valid_id id -> (neighbour true true id <> id -> neighbour false true (neighbour true true id) = id) /\
  (neighbour false true id <> id -> neighbour true true (neighbour false true id) = id).
Proof. unfold valid_id, neighbour. intros H. split; intros Hn; repeat case_if; lia. Qed.

Lemma keep_bank_kept up id : valid_id id -> neighbour up true id / 5 = id / 5.
Proof. unfold valid_id, neighbour. intros H. destruct up; case_if; lia. Qed.

Lemma up_iter id k : valid_id id -> Nat.iter k (neighbour true false) id = (id + Z.of_nat k) mod 625.
Proof.
  intros H. induction k as [|k IH]; [cbn; unfold valid_id in H; rewrite Z.mod_small; lia|].
  change (Nat.iter (S k) (neighbour true false) id) with (neighbour true false (Nat.iter k (neighbour true false) id)). rewrite IH. unfold neighbour. lia.
Qed.

(* ---- bank up / down ---- *)

Lemma add_while_ok n : 0 < n -> forall fuel v, - Z.of_nat fuel <= v ->
  exists r, add_while fuel n v = Some r /\ 0 <= r /\ r mod n = v mod n /\ r <= Z.max v (n - 1).
Proof.
  intros Hn. induction fuel as [|f IH]; intros v Hv; cbn [add_while].
  - destruct (v <? 0) eqn:E; [lia|]. exists v. repeat split; auto; lia.
  - destruct (v <? 0) eqn:E; [|exists v; repeat split; auto; lia].
    destruct (IH (v + n)) as (r & Hr & H0 & Hm & Hl); [lia|]. exists r. split; auto. split; auto. split; [|lia].
    rewrite Hm. replace (v + n) with (v + 1 * n) by lia. apply Z.mod_add. lia.
Qed.

Lemma sub_while_ok n : 0 < n -> forall fuel v, v <= Z.of_nat fuel -> 0 <= v -> exists r, sub_while fuel n v = Some r /\ 0 <= r < n /\ r = v mod n.
Proof.
  intros Hn. induction fuel as [|f IH]; intros v Hv H0; cbn [sub_while].
  - destruct (n <=? v) eqn:E; [lia|]. exists v. repeat split; auto; try lia. symmetry. apply Z.mod_small. lia.
  - destruct (n <=? v) eqn:E.
    + destruct (IH (v - n)) as (r & Hr & Hb & Hm); try lia. exists r. split; auto. split; auto. rewrite Hm.
      replace (v - n) with (v + (-1) * n) by lia. apply Z.mod_add. lia.
    + exists v. repeat split; auto; try lia. symmetry. apply Z.mod_small. lia.
Qed.

Lemma next_bank_ok c id sh fuel : 0 <= id -> 0 < bc_num c -> 0 <= base_bank id sh ->
  base_bank id sh + 1 <= Z.of_nat fuel -> bc_num c <= Z.of_nat fuel ->
  next_bank fuel c id sh = Some ((base_bank id sh + if bc_up c then 1 else -1) mod bc_num c).
Proof.
  intros Hid Hn Hb Hf1 Hf2. unfold next_bank.
  replace (match s_pre sh with Some b => b | None => bank_of id end) with (base_bank id sh)
    by (unfold base_bank; rewrite bank_of_div by lia; reflexivity).
  set (b := base_bank id sh) in *. clearbody b. set (v := b + if bc_up c then 1 else -1).
  assert (Hv : -1 <= v <= b + 1) by (subst v; destruct (bc_up c); lia).
  destruct (add_while_ok (bc_num c) Hn fuel v) as (r & -> & H0 & Hm & Hl); [lia|].
  destruct (sub_while_ok (bc_num c) Hn fuel r) as (q & -> & _ & ->); try lia. f_equal. exact Hm.
Qed.

Lemma bank_press c id sh fuel : bc_pre c = true -> 0 <= id -> 0 < bc_num c -> 0 <= base_bank id sh ->
  base_bank id sh + 1 <= Z.of_nat fuel -> bc_num c <= Z.of_nat fuel ->
  exists b, b = (base_bank id sh + if bc_up c then 1 else -1) mod bc_num c /\ 0 <= b < bc_num c /\
    bank_change_push fuel c (Some id) sh = Some (mkShared (Some b) (Some 0), [CC 47 b]).
Proof.
  intros Hp Hid Hn Hb H1 H2. eexists. split; [reflexivity|]. split; [apply Z.mod_pos_bound; lia|].
  unfold bank_change_push. rewrite Hp, next_bank_ok by assumption. reflexivity.
Qed.

Lemma bank_presses c id fuel : bc_pre c = true -> 0 <= id -> 0 < bc_num c -> bc_num c <= Z.of_nat fuel -> forall k sh,
  0 <= base_bank id sh -> base_bank id sh + 1 <= Z.of_nat fuel ->
  exists sh', presses fuel c (Some id) sh k =
    Some (sh', map (fun i => CC 47 ((base_bank id sh + (if bc_up c then 1 else -1) * Z.of_nat i) mod bc_num c)) (seq 1 k)) /\
    match k with O => sh' = sh | _ => s_pre sh' = Some ((base_bank id sh + (if bc_up c then 1 else -1) * Z.of_nat k) mod bc_num c) end.
Proof.
  intros Hp Hid Hn Hf. induction k as [|k IH]; intros sh Hb H1; [exists sh; split; reflexivity|].
  cbn [presses]. destruct (bank_press c id sh fuel Hp Hid Hn Hb H1 Hf) as (b & Eb & Hbr & ->).
  destruct (IH (mkShared (Some b) (Some 0))) as (sh' & E & Hs); [cbn; lia|cbn; lia|]. rewrite E. clear E.
  change (base_bank id (mkShared (Some b) (Some 0))) with b in *.
  set (d := if bc_up c then 1 else -1) in *. set (n := bc_num c) in *. set (b0 := base_bank id sh) in *.
  assert (M : forall i, (b + d * Z.of_nat i) mod n = (b0 + d * Z.of_nat (S i)) mod n).
  { intros i. subst b. rewrite Zplus_mod_idemp_l. f_equal. lia. }
  exists sh'. split.
  - cbn [seq map]. do 2 f_equal. cbn [app]. f_equal.
    + f_equal. rewrite Eb. f_equal. lia.
    + rewrite <- (seq_shift k 1), map_map. apply map_ext. intros i. f_equal. apply M.
  - destruct k as [|k].
    + subst sh'. cbn [s_pre]. f_equal. rewrite Eb. f_equal. lia.
    + rewrite Hs. f_equal. apply M.
Qed.

Lemma bank_up_down c1 c2 id sh sh1 m1 fuel : bc_pre c1 = true -> bc_pre c2 = true -> bc_max c1 = bc_max c2 -> bc_up c1 = negb (bc_up c2) ->
  0 <= id -> 0 <= base_bank id sh < bc_num c1 -> bc_num c1 <= Z.of_nat fuel ->
  bank_change_push fuel c1 (Some id) sh = Some (sh1, m1) ->
  exists sh2, bank_change_push fuel c2 (Some id) sh1 = Some (sh2, [CC 47 (base_bank id sh)]) /\ s_pre sh2 = Some (base_bank id sh).
Proof.
  intros Hp1 Hp2 Hm Hu Hid Hb Hf Hpush.
  destruct (bank_press c1 id sh fuel) as (b & Eb & Hbr & E); try lia; auto. rewrite E in Hpush. injection Hpush as <- <-.
  assert (Hn : bc_num c2 = bc_num c1) by (unfold bc_num; rewrite Hm; reflexivity).
  destruct (bank_press c2 id (mkShared (Some b) (Some 0)) fuel) as (b2 & Eb2 & Hbr2 & E2); cbn [base_bank s_pre]; try lia; auto.
  change (base_bank id (mkShared (Some b) (Some 0))) with b in *.
  assert (b2 = base_bank id sh) as ->; [|exists (mkShared (Some (base_bank id sh)) (Some 0)); split; auto].
  rewrite Eb2, Hn, Eb, Hu, Zplus_mod_idemp_l.
  transitivity (base_bank id sh mod bc_num c1); [f_equal; destruct (bc_up c2); cbn [negb]; lia|apply Z.mod_small; lia].
Qed.

Lemma sub_while_none n : n <= 0 -> forall fuel v, 0 <= v -> sub_while fuel n v = None.
Proof. intros Hn. induction fuel as [|f IH]; intros v Hv; cbn [sub_while]; destruct (n <=? v) eqn:E; try lia; auto. apply IH. lia. Qed.
Lemma add_while_none n : n <= 0 -> forall fuel v, v < 0 -> add_while fuel n v = None.
Proof. intros Hn. induction fuel as [|f IH]; intros v Hv; cbn [add_while]; destruct (v <? 0) eqn:E; try lia; auto. apply IH. lia. Qed.

Lemma no_banks fuel c id sh : bc_pre c = true -> bc_num c <= 0 -> bank_change_push fuel c (Some id) sh = None.
Proof.
  intros Hp Hn. unfold bank_change_push, next_bank. rewrite Hp. set (v := _ + _). clearbody v.
  destruct (Z.ltb_spec v 0).
  - rewrite add_while_none by lia. reflexivity.
  - assert (E : add_while fuel (bc_num c) v = Some v) by (destruct fuel; cbn [add_while]; destruct (v <? 0) eqn:E; auto; lia).
    rewrite E, sub_while_none by lia. reflexivity.
Qed.

(* ---- rig selection: one press ---- *)

Lemma rs_on_there c id : 0 <= id -> rs_on c (Some id) = already_there c id.
Proof.
  intros H. unfold rs_on, already_there. destruct (rs_rig c) as [r|]; auto. rewrite rig_of_mod, bank_of_div by lia.
  rewrite (Z.eqb_sym (r - 1)). destruct (rs_bank c) as [b|].
  - rewrite (Z.eqb_sym (b - 1)), andb_comm. reflexivity.
  - rewrite andb_comm. reflexivity.
Qed.

Lemma react_rig' p id r : 0 <= r <= 4 -> react (mkDevice id p) (CC (50 + r) 1) = mkDevice (5 * (match p with Some b => b | None => id / 5 end) + r) None.
Proof. intros H. assert (r = 0 \/ r = 1 \/ r = 2 \/ r = 3 \/ r = 4) as [-> | [-> | [-> | [-> | ->]]]] by lia; reflexivity. Qed.

Lemma rs_press c s sh id s' sh' ms : good_rs c -> valid_id id -> good_opt (k_rig_off s) 5 ->
  rs_push c (Some id) s sh = (s', sh', ms) ->
  react_all (mkDevice id (s_pre sh)) ms = mkDevice (target c (k_rig_off s) (k_bank_off s) (s_pre sh) id) None /\
  s_pre sh' = None /\
  exists b r, ms = b ++ [CC (50 + r) 1] /\ 0 <= r <= 4 /\ k_sent s' = Some r /\
    ((rs_bank c <> None /\ s_pre sh = None /\ exists x, b = [CC 47 x]) \/ ((rs_bank c = None \/ s_pre sh <> None) /\ b = [])).
Proof.
  intros (G1 & G2 & G3 & G4) Hid Hoff. unfold rs_push. rewrite rs_on_there by (unfold valid_id in Hid; lia).
  rewrite rig_of_mod. unfold rig_select, bank_select, target, rig_id. intros E. injection E as <- <- <-.
  cbn [s_pre k_sent]. unfold valid_id in Hid. pose proof (Z.mod_pos_bound id 5 ltac:(lia)) as Hm.
  destruct (s_pre sh) as [p|] eqn:Ep; cbn [is_some negb].
  - rewrite andb_false_r. split; [|split; auto].
    + destruct (rs_rig c) as [r|]; cbn [number app react_all fold_left good_opt] in *; rewrite react_rig' by lia; f_equal.
    + destruct (rs_rig c) as [r|]; cbn [good_opt app] in *; [exists [], (r - 1)|exists [], (id mod 5)]; (repeat split; auto; try lia); right; (split; [right; discriminate|auto]).
  - rewrite andb_true_r. destruct (already_there c id) eqn:Ea.
    + assert (Hr : exists r, rs_rig c = Some r /\ r - 1 = id mod 5 /\ match rs_bank c with Some b => b - 1 = id / 5 | None => True end).
      { unfold already_there in Ea. destruct (rs_rig c) as [r|]; [|discriminate]. exists r. destruct (rs_bank c); split; auto; lia. }
      destruct Hr as (r & Er & Hr & Hb). rewrite Er in *. cbn [good_opt] in G1.
      split; [|split; auto].
      * destruct (k_rig_off s) as [ro|], (rs_bank c) as [b|], (k_bank_off s) as [bo|]; cbn [number app react_all fold_left good_opt] in *;
          change (react (mkDevice id None) (CC 47 ?z)) with (mkDevice id (Some z)); rewrite ?react_rig' by lia; f_equal; lia.
      * destruct (k_rig_off s) as [ro|], (rs_bank c) as [b|], (k_bank_off s) as [bo|]; cbn [good_opt] in Hoff;
          (eexists _, _; split; [reflexivity|]; (split; [lia|]); (split; [reflexivity|]));
          try (left; repeat split; auto; [discriminate|eexists; reflexivity]); right; auto.
    + split; [|split; auto].
      * destruct (rs_rig c) as [r|], (rs_bank c) as [b|], (k_bank_off s) as [bo|]; cbn [number app react_all fold_left good_opt] in *;
          rewrite ?react_bank; rewrite ?react_rig' by lia; reflexivity.
      * destruct (rs_rig c) as [r|], (rs_bank c) as [b|], (k_bank_off s) as [bo|]; cbn [good_opt] in *;
          (eexists _, _; split; [reflexivity|]; (split; [lia|]); (split; [reflexivity|]));
          try (left; repeat split; auto; [discriminate|eexists; reflexivity]); right; auto.
Qed.

(* ---- the world: off numbers ---- *)

Lemma wrun_app cfg fuel l1 : forall l2 w w2 ev, wrun cfg fuel w (l1 ++ l2) = Some (w2, ev) ->
  exists w1 e1 e2, wrun cfg fuel w l1 = Some (w1, e1) /\ wrun cfg fuel w1 l2 = Some (w2, e2) /\ ev = e1 ++ e2.
Proof.
  induction l1 as [|o l1 IH]; intros l2 w w2 ev H; cbn [app wrun] in *; [exists w, [], ev; auto|].
  destruct (wstep cfg fuel w o) as [[w0 e0]|]; [|discriminate].
  destruct (wrun cfg fuel w0 (l1 ++ l2)) as [[w3 e3]|] eqn:E; [|discriminate]. injection H as <- <-.
  destruct (IH _ _ _ _ E) as (w1 & e1 & e2 & -> & H2 & ->). exists w1, (e0 ++ e1), e2. rewrite app_assoc. auto.
Qed.
Lemma wrun_snoc cfg fuel l o w w2 ev : wrun cfg fuel w (l ++ [o]) = Some (w2, ev) ->
  exists w1 e1 e2, wrun cfg fuel w l = Some (w1, e1) /\ wstep cfg fuel w1 o = Some (w2, e2) /\ ev = e1 ++ e2.
Proof.
  intros H. destruct (wrun_app _ _ _ _ _ _ _ H) as (w1 & e1 & e2 & H1 & H2 & ->). exists w1, e1, e2. split; auto. split; auto.
  cbn [wrun] in H2. destruct (wstep cfg fuel w1 o) as [[w3 e3]|]; [|discriminate]. injection H2 as <- <-. rewrite app_nil_r. reflexivity.
Qed.

(* the rig id last reported *)
Fixpoint last_report (cur : option Z) (ops : list wop) : option Z :=
  match ops with [] => cur | Report id :: r => last_report id r | _ :: r => last_report cur r end.

Lemma drawn_app k l1 l2 : forall cur, drawn k cur (l1 ++ l2) = drawn k cur l1 ++ drawn k (last_report cur l1) l2.
Proof. induction l1 as [|o l1 IH]; intros cur; auto. destruct o; cbn [app drawn last_report]; rewrite ?IH, ?app_assoc; auto. Qed.
Lemma last_report_app l1 l2 : forall cur, last_report cur (l1 ++ l2) = last_report (last_report cur l1) l2.
Proof. induction l1 as [|o l1 IH]; intros cur; auto. destruct o; cbn [app last_report]; auto. Qed.

Lemma put_same f k s : put_st f k s k = s.
Proof. unfold put_st. rewrite Nat.eqb_refl. reflexivity. Qed.
Lemma put_other f k s j : j <> k -> put_st f k s j = f j.
Proof. unfold put_st. intros H. apply Nat.eqb_neq in H. rewrite H. reflexivity. Qed.

(* what a step does to one callback: the off numbers and the remembered value change when drawing only *)
Lemma wstep_off cfg fuel w o w' ev k : wstep cfg fuel w o = Some (w', ev) ->
  (forall j, o <> Draw j) ->
  k_cur (w_st w' k) = k_cur (w_st w k) /\ k_rig_off (w_st w' k) = k_rig_off (w_st w k) /\ k_bank_off (w_st w' k) = k_bank_off (w_st w k).
Proof.
  intros H Hd. destruct o as [j|j|j|id]; cbn [wstep] in H.
  - destruct (cfg j) as [up keep|c|c|c].
    + destruct (rig_change_push _ _ _ _ _) as [[x sh] m]. injection H as <- <-. cbn [w_st]. unfold put_st. destruct (k =? j)%nat eqn:E; auto. apply Nat.eqb_eq in E. subst. auto.
    + destruct (bank_change_push _ _ _ _) as [[sh m]|]; [|discriminate]. injection H as <- <-. auto.
    + unfold rs_push in H. injection H as <- <-. cbn [w_st]. unfold put_st. destruct (k =? j)%nat eqn:E; auto. apply Nat.eqb_eq in E. subst. auto.
    + destruct (bs_push _ _ _ _) as [[x sh] m]. injection H as <- <-. cbn [w_st]. unfold put_st. destruct (k =? j)%nat eqn:E; auto. apply Nat.eqb_eq in E. subst. auto.
  - destruct (cfg j) as [up keep|c|c|c].
    + destruct (release_sent _) as [x m]. injection H as <- <-. cbn [w_st]. unfold put_st. destruct (k =? j)%nat eqn:E; auto. apply Nat.eqb_eq in E. subst. auto.
    + injection H as <- <-. auto.
    + unfold rs_release in H. destruct (release_sent _) as [x m]. injection H as <- <-. cbn [w_st]. unfold put_st. destruct (k =? j)%nat eqn:E; auto. apply Nat.eqb_eq in E. subst. auto.
    + destruct (release_sent _) as [x m]. injection H as <- <-. cbn [w_st]. unfold put_st. destruct (k =? j)%nat eqn:E; auto. apply Nat.eqb_eq in E. subst. auto.
  - exfalso. eapply Hd. reflexivity.
  - injection H as <- <-. auto.
Qed.

Lemma wstep_id cfg fuel w o w' ev : wstep cfg fuel w o = Some (w', ev) -> w_id w' = match o with Report id => id | _ => w_id w end.
Proof.
  intros H. destruct o as [j|j|j|id]; cbn [wstep] in H; try (destruct (cfg j) as [up keep|c|c|c]).
  all: repeat match type of H with context [match ?x with _ => _ end] => destruct x; try discriminate end.
  all: injection H as <- <-; reflexivity.
Qed.

Lemma last_snoc {A} (l : list A) x d : last (l ++ [x]) d = x.
Proof. apply last_last. Qed.

Lemma off_rig_snoc c seen id : off_rig c (seen ++ [id]) =
  match rs_rig c with
  | Some r => if negb (existsb (Z.eqb (id mod 5 + 1)) (rs_exclude c)) && is_auto (rs_rig_off c) && negb (id mod 5 =? r - 1)
              then Some (id mod 5 + 1) else off_rig c seen
  | None => off_rig c seen
  end.
Proof.
  unfold off_rig. destruct (rs_rig c) as [r|]; destruct (rs_rig_off c); cbn [is_auto]; rewrite ?andb_false_r; cbn [andb]; auto.
  rewrite map_app, filter_app. cbn [map filter].
  assert (E : (id mod 5 + 1 =? r) = (id mod 5 =? r - 1)) by (destruct (Z.eqb_spec (id mod 5) (r - 1)); destruct (Z.eqb_spec (id mod 5 + 1) r); lia || reflexivity).
  rewrite E. rewrite andb_true_r. destruct (id mod 5 =? r - 1); cbn [negb andb]; rewrite ?andb_false_r, ?andb_true_r, ?app_nil_r; auto.
  destruct (existsb _ _); cbn [negb]; rewrite ?app_nil_r, ?last_snoc; auto.
Qed.
Lemma off_bank_snoc c seen id : off_bank c (seen ++ [id]) =
  match rs_bank c with
  | Some b => if is_auto (rs_bank_off c) && negb (id / 5 =? b - 1) then Some (id / 5 + 1) else off_bank c seen
  | None => off_bank c seen
  end.
Proof.
  unfold off_bank. destruct (rs_bank c) as [b|]; destruct (rs_bank_off c); cbn [is_auto andb]; auto.
  rewrite map_app, filter_app. cbn [map filter].
  assert (E : (id / 5 + 1 =? b) = (id / 5 =? b - 1)) by (destruct (Z.eqb_spec (id / 5) (b - 1)); destruct (Z.eqb_spec (id / 5 + 1) b); lia || reflexivity).
  rewrite E. destruct (id / 5 =? b - 1); cbn [negb]; rewrite ?app_nil_r, ?last_snoc; auto.
Qed.

Lemma off_tracked cfg fuel k c : cfg k = RigSelect c -> forall ops w ev, whistory cfg fuel ops w ev -> reports_valid ops ->
  w_id w = last_report None ops /\
  (forall id, w_id w = Some id -> valid_id id) /\
  k_rig_off (w_st w k) = off_rig c (drawn k None ops) /\ k_bank_off (w_st w k) = off_bank c (drawn k None ops) /\
  match k_cur (w_st w k) with Some x => drawn k None ops <> [] /\ last (drawn k None ops) 0 = x | None => True end.
Proof.
  intros Hk. induction ops as [|o ops IH] using rev_ind; intros w ev H Hv.
  - unfold whistory in H. cbn [wrun] in H. injection H as <- <-. cbn [w_id w_st new_world drawn last_report cb_new]. rewrite Hk. cbn [cb_new rs_new k_rig_off k_bank_off k_cur].
    split; [reflexivity|]. split; [discriminate|]. unfold off_rig, off_bank, off_start. destruct (rs_rig_off c), (rs_rig c), (rs_bank_off c), (rs_bank c); auto.
  - unfold whistory in H. destruct (wrun_snoc _ _ _ _ _ _ _ H) as (w1 & e1 & e2 & H1 & H2 & ->).
    destruct (IH w1 e1 H1) as (I1 & I2 & I3 & I4 & I5). { intros id Hin. apply Hv, in_or_app. auto. }
    pose proof (wstep_id _ _ _ _ _ _ H2) as Hid. rewrite drawn_app, last_report_app, <- I1.
    assert (Hval : forall id, w_id w = Some id -> valid_id id).
    { intros id E. rewrite Hid in E. destruct o; auto. subst. apply Hv, in_or_app. right. left. congruence. }
    destruct o as [j|j|j|id].
    + destruct (wstep_off _ _ _ _ _ _ k H2) as (O1 & O2 & O3); [discriminate|]. cbn [drawn last_report]. rewrite app_nil_r, O1, O2, O3. auto.
    + destruct (wstep_off _ _ _ _ _ _ k H2) as (O1 & O2 & O3); [discriminate|]. cbn [drawn last_report]. rewrite app_nil_r, O1, O2, O3. auto.
    + cbn [drawn last_report]. rewrite app_nil_r. split; auto. split; auto. destruct (j =? k)%nat eqn:Ejk.
      * apply Nat.eqb_eq in Ejk. subst j. cbn [wstep] in H2. rewrite Hk in H2. injection H2 as <- <-. cbn [w_st]. rewrite put_same.
        unfold rs_draw. destruct (w_id w1) as [id|] eqn:Eid; [|rewrite app_nil_r; auto].
        assert (Hp : valid_id id) by (apply I2; auto).
        destruct (opt_is (k_cur (w_st w1 k)) id) eqn:Eo.
        { unfold opt_is in Eo. destruct (k_cur (w_st w1 k)) as [x|]; [|discriminate]. apply Z.eqb_eq in Eo. subst x. destruct I5 as (Hne & Hl).
          rewrite off_rig_snoc, off_bank_snoc.
          destruct (@exists_last _ (drawn k None ops) Hne) as (l & y & E). rewrite E in *. rewrite last_snoc in Hl. subst y.
          rewrite off_rig_snoc, off_bank_snoc in *. rewrite last_snoc. repeat split.
          - rewrite I3. destruct (rs_rig c); auto. case_if; auto.
          - rewrite I4. destruct (rs_bank c); auto. case_if; auto.
          - intros E2. destruct (l ++ [id]); discriminate. }
        { cbn [k_rig_off k_bank_off k_cur]. rewrite off_rig_snoc, off_bank_snoc, last_snoc, rig_of_mod, bank_of_div by (unfold valid_id in Hp; lia).
          repeat split; auto.
          - rewrite I3. reflexivity.
          - rewrite I4. reflexivity.
          - intros E2. destruct (drawn k None ops); discriminate. }
      * rewrite app_nil_r. cbn [wstep] in H2. destruct (cfg j); injection H2 as <- <-; auto. cbn [w_st]. apply Nat.eqb_neq in Ejk. rewrite put_other by auto. auto.
    + destruct (wstep_off _ _ _ _ _ _ k H2) as (O1 & O2 & O3); [discriminate|]. cbn [drawn last_report]. rewrite app_nil_r, O1, O2, O3. auto.
Qed.

Lemma last_cases {A} (l : list A) d : last l d = d \/ In (last l d) l.
Proof. destruct l as [|x l] using rev_ind; auto. right. rewrite last_snoc. apply in_or_app. right. left. reflexivity. Qed.

Lemma off_rig_good c seen : good_rs c -> good_opt (off_rig c seen) 5.
Proof.
  intros (G1 & G2 & G3 & G4). unfold off_rig. destruct (rs_rig_off c); cbn [good_off] in *; [exact I|exact G2|].
  destruct (rs_rig c) as [r|]; cbn [good_opt]; [|lia].
  match goal with |- context [last ?l ?d] => destruct (last_cases l d) as [-> | H] end; [lia|].
  apply filter_In in H. destruct H as (H & _). apply in_map_iff in H. destruct H as (id & <- & _).
  pose proof (Z.mod_pos_bound id 5). lia.
Qed.

Lemma rs_press_history cfg fuel ops w ev k c id : cfg k = RigSelect c -> good_rs c -> whistory cfg fuel ops w ev -> reports_valid ops ->
  w_id w = Some id ->
  exists w' b r, wstep cfg fuel w (Press k) = Some (w', map (pair k) (b ++ [CC (50 + r) 1])) /\ 0 <= r <= 4 /\
    react_all (mkDevice id (s_pre (w_sh w))) (b ++ [CC (50 + r) 1]) =
      mkDevice (target c (off_rig c (drawn k None ops)) (off_bank c (drawn k None ops)) (s_pre (w_sh w)) id) None /\
    ((rs_bank c <> None /\ s_pre (w_sh w) = None /\ exists x, b = [CC 47 x]) \/ ((rs_bank c = None \/ s_pre (w_sh w) <> None) /\ b = [])) /\
    s_pre (w_sh w') = None.
Proof.
  intros Hk Hg H Hv Hid. destruct (off_tracked cfg fuel k c Hk ops w ev H Hv) as (_ & I2 & I3 & I4 & _).
  cbn [wstep]. rewrite Hk, Hid. destruct (rs_push c (Some id) (w_st w k) (w_sh w)) as [[s' sh'] ms] eqn:E.
  destruct (rs_press c (w_st w k) (w_sh w) id s' sh' ms) as (P1 & P2 & b & r & -> & P3 & P4 & P5); auto.
  { rewrite I3. apply off_rig_good; auto. }
  exists (mkWorld (Some id) sh' (put_st (w_st w) k s')), b, r. rewrite <- I3, <- I4. repeat split; auto; lia.
Qed.

(* ---- the world: messages of one switch ---- *)

Lemma sent_by_app k a b : sent_by k (a ++ b) = sent_by k a ++ sent_by k b.
Proof. unfold sent_by. rewrite filter_app, map_app. reflexivity. Qed.
Lemma sent_by_same k m : sent_by k (map (pair k) m) = m.
Proof. unfold sent_by. induction m as [|x m IH]; auto. cbn [map filter fst]. rewrite Nat.eqb_refl. cbn [map snd]. rewrite IH. reflexivity. Qed.
Lemma sent_by_nil k : sent_by k [] = [].
Proof. reflexivity. Qed.
Lemma sent_by_cons k x l : sent_by k ((k, x) :: l) = x :: sent_by k l.
Proof. unfold sent_by. cbn [filter fst]. rewrite Nat.eqb_refl. reflexivity. Qed.
Lemma sent_by_other k j m : j <> k -> sent_by k (map (pair j) m) = [].
Proof. intros H. unfold sent_by. induction m as [|x m IH]; auto. cbn [map filter fst]. apply Nat.eqb_neq in H. rewrite H. exact IH. Qed.

Lemma wstep_other cfg fuel w o w' ev k : wstep cfg fuel w o = Some (w', ev) -> o <> Press k -> o <> Let_go k ->
  sent_by k ev = [] /\ k_sent (w_st w' k) = k_sent (w_st w k).
Proof.
  intros H N1 N2. destruct o as [j|j|j|id]; cbn [wstep] in H.
  - assert (j <> k) by congruence. destruct (cfg j) as [up keep|c|c|c].
    + destruct (rig_change_push _ _ _ _ _) as [[x sh] m]. injection H as <- <-. cbn [w_st]. rewrite put_other, sent_by_other by auto. auto.
    + destruct (bank_change_push _ _ _ _) as [[sh m]|]; [|discriminate]. injection H as <- <-. rewrite sent_by_other by auto. auto.
    + destruct (rs_push _ _ _ _) as [[x sh] m]. injection H as <- <-. cbn [w_st]. rewrite put_other, sent_by_other by auto. auto.
    + destruct (bs_push _ _ _ _) as [[x sh] m]. injection H as <- <-. cbn [w_st]. rewrite put_other, sent_by_other by auto. auto.
  - assert (j <> k) by congruence. destruct (cfg j) as [up keep|c|c|c].
    + destruct (release_sent _) as [x m]. injection H as <- <-. cbn [w_st]. rewrite put_other, sent_by_other by auto. auto.
    + injection H as <- <-. auto.
    + destruct (rs_release _ _ _ _) as [[x sh] m]. injection H as <- <-. cbn [w_st]. rewrite put_other, sent_by_other by auto. auto.
    + destruct (release_sent _) as [x m]. injection H as <- <-. cbn [w_st]. rewrite put_other, sent_by_other by auto. auto.
  - destruct (cfg j); injection H as <- <-; auto. cbn [w_st]. destruct (Nat.eq_dec k j) as [->|].
    + rewrite put_same. split; auto. unfold rs_draw. destruct (w_id w); auto. case_if; auto.
    + rewrite put_other by auto. auto.
  - injection H as <- <-. auto.
Qed.

(* rig numbers remembered for the release are those of the device *)
Definition sane (w : world) : Prop := forall k, (forall r, k_sent (w_st w k) = Some r -> 0 <= r <= 4) /\ (forall r, k_rig_off (w_st w k) = Some r -> 1 <= r <= 5).

Lemma rs_push_sent c v s sh s' sh' ms : good_rs c -> (forall r, k_rig_off s = Some r -> 1 <= r <= 5) -> rs_push c v s sh = (s', sh', ms) ->
  filter is_rig ms = match k_sent s' with Some r => [CC (50 + r) 1] | None => [] end /\ (forall r, k_sent s' = Some r -> 0 <= r <= 4).
Proof.
  intros (G1 & _) Ho H. unfold rs_push in H. injection H as <- <- <-. cbn [k_sent].
  match goal with |- _ /\ (forall r, ?x = Some r -> _) => set (snt := x) end.
  assert (Hs : forall r, snt = Some r -> 0 <= r <= 4).
  { intros r. subst snt. destruct (if _ && _ then k_rig_off s else None) as [ro|] eqn:E.
    - intros F. injection F as <-. destruct (_ && _); [|discriminate]. specialize (Ho ro E). lia.
    - destruct (rs_rig c) as [x|]; cbn [good_opt] in G1; [intros F; injection F as <-; lia|]. destruct v as [id|]; [|discriminate].
      intros F. injection F as <-. rewrite rig_of_mod. pose proof (Z.mod_pos_bound id 5). lia. }
  split; auto. rewrite filter_app. match goal with |- filter is_rig ?a ++ _ = _ => assert (filter is_rig a = []) as -> end.
  { repeat match goal with |- context [match ?x with _ => _ end] => destruct x end; reflexivity. }
  cbn [app]. destruct snt as [r|] eqn:E; auto. specialize (Hs r eq_refl). cbn [filter rig_select is_rig]. destruct (50 <=? 50 + r) eqn:E2; auto. lia.
Qed.

Lemma step_sane cfg fuel w o w' ev : (forall k, good_cb (cfg k)) -> wstep cfg fuel w o = Some (w', ev) -> sane w -> sane w'.
Proof.
  intros Hg H S k. destruct (S k) as (S1 & S2).
  assert (Hr : forall r, k_rig_off (w_st w' k) = Some r -> 1 <= r <= 5).
  { destruct o as [j|j|j|id].
    1, 2, 4: destruct (wstep_off _ _ _ _ _ _ k H) as (_ & O & _); [discriminate|]; rewrite O; exact S2.
    cbn [wstep] in H. destruct (cfg j) as [| |c|] eqn:Ec; injection H as <- <-; auto. cbn [w_st].
    destruct (Nat.eq_dec k j) as [->|]; [|rewrite put_other by auto; auto]. rewrite put_same. unfold rs_draw.
    destruct (w_id w) as [id|]; auto. case_if; auto. cbn [k_rig_off]. destruct (rs_rig c); auto. case_if; auto. intros r F. injection F as <-.
    rewrite rig_of_mod. pose proof (Z.mod_pos_bound id 5). lia. }
  split; auto.
  assert (D : (o <> Press k /\ o <> Let_go k) \/ o = Press k \/ o = Let_go k).
  { destruct o as [j|j|j|id]; try (left; split; discriminate); destruct (Nat.eq_dec j k) as [->|]; auto; left; split; congruence. }
  destruct D as [(D1 & D2) | [-> | ->]].
  - destruct (wstep_other _ _ _ _ _ _ k H D1 D2) as (_ & ->). auto.
  - cbn [wstep] in H. specialize (Hg k). destruct (cfg k) as [up keep|c|c|c].
    + unfold rig_change_push in H. destruct (w_id w) as [id|]; [destruct (next_rig up keep id =? id)|]; injection H as <- <-; cbn [w_st]; rewrite put_same; cbn [put_sent k_sent]; auto.
      intros r F. injection F as <-. rewrite rig_of_mod. pose proof (Z.mod_pos_bound (next_rig up keep id) 5). lia.
    + destruct (bank_change_push _ _ _ _) as [[sh m]|]; [|discriminate]. injection H as <- <-. auto.
    + destruct (rs_push _ _ _ _) as [[x sh] m] eqn:E. injection H as <- <-. cbn [w_st]. rewrite put_same. exact (proj2 (rs_push_sent _ _ _ _ _ _ _ Hg S2 E)).
    + unfold bs_push in H. destruct (w_id w) as [id|]; [destruct (bs_pre c)|]; injection H as <- <-; cbn [w_st]; rewrite put_same; cbn [put_sent k_sent]; auto.
      intros r F. injection F as <-. rewrite rig_of_mod. pose proof (Z.mod_pos_bound id 5). lia.
  - cbn [wstep] in H. destruct (cfg k) as [up keep|c|c|c].
    2: { injection H as <- <-. auto. }
    all: unfold rs_release, release_sent in H; destruct (k_sent (w_st w k)) as [r|]; injection H as <- <-; cbn [w_st]; rewrite put_same; discriminate.
Qed.

Lemma new_sane cfg : (forall k, good_cb (cfg k)) -> sane (new_world cfg).
Proof.
  intros Hg k. cbn [w_st new_world]. specialize (Hg k). destruct (cfg k) as [up keep|c|c|c]; cbn [cb_new rs_new k_sent k_rig_off]; split; try discriminate.
  destruct Hg as (_ & G & _). destruct (rs_rig_off c); cbn [off_start good_off] in *; try discriminate; intros r F; injection F as <-; lia.
Qed.

(* a press: at most one rig message, remembered for the release *)
Lemma press_messages cfg fuel w w' ev k : (forall k, good_cb (cfg k)) -> sane w -> wstep cfg fuel w (Press k) = Some (w', ev) ->
  k_sent (w_st w k) = None ->
  filter is_rig (sent_by k ev) = match k_sent (w_st w' k) with Some r => [CC (50 + r) 1] | None => [] end.
Proof.
  intros Hg S H Hn. cbn [wstep] in H. specialize (Hg k). destruct (S k) as (_ & S2). destruct (cfg k) as [up keep|c|c|c].
  - unfold rig_change_push in H. destruct (w_id w) as [id|]; [destruct (next_rig up keep id =? id)|]; injection H as <- <-; cbn [w_st]; rewrite put_same, ?sent_by_same, ?sent_by_cons, ?sent_by_nil; cbn [put_sent k_sent]; rewrite ?Hn; auto.
    rewrite filter_app. case_if; cbn [filter bank_select is_rig rig_select app Z.leb]; rewrite rig_of_mod; pose proof (Z.mod_pos_bound (next_rig up keep id) 5);
      destruct (50 <=? 50 + next_rig up keep id mod 5) eqn:E; auto; lia.
  - unfold bank_change_push in H. destruct (bc_pre c); [destruct (w_id w) as [id|]; [destruct (next_bank _ _ _ _); [|discriminate]|]|]; injection H as <- <-; cbn [w_st];
      rewrite ?sent_by_same, ?sent_by_cons, ?sent_by_nil, Hn; try reflexivity. cbn [filter bank_step is_rig]. destruct (bc_up c); reflexivity.
  - destruct (rs_push _ _ _ _) as [[x sh] m] eqn:E. injection H as <- <-. cbn [w_st]. rewrite put_same, sent_by_same. exact (proj1 (rs_push_sent _ _ _ _ _ _ _ Hg S2 E)).
  - unfold bs_push in H. destruct (w_id w) as [id|]; [destruct (bs_pre c)|]; injection H as <- <-; cbn [w_st]; rewrite put_same, ?sent_by_same, ?sent_by_cons, ?sent_by_nil; cbn [put_sent k_sent]; rewrite ?Hn; auto.
    cbn [filter bank_select is_rig rig_select]. rewrite rig_of_mod. pose proof (Z.mod_pos_bound id 5). destruct (50 <=? 50 + id mod 5) eqn:E; [reflexivity|lia].
Qed.

Lemma release_messages cfg fuel w w' ev k : sane w -> wstep cfg fuel w (Let_go k) = Some (w', ev) -> (forall c, cfg k = BankChange c -> k_sent (w_st w k) = None) ->
  filter is_rig (sent_by k ev) = match k_sent (w_st w k) with Some r => [CC (50 + r) 0] | None => [] end /\ k_sent (w_st w' k) = None.
Proof.
  intros S H Hb. destruct (S k) as (S1 & _). cbn [wstep] in H. destruct (cfg k) as [up keep|c|c|c].
  2: { injection H as <- <-. rewrite (Hb c eq_refl). auto. }
  all: unfold rs_release, release_sent in H; destruct (k_sent (w_st w k)) as [r|] eqn:E; injection H as <- <-; cbn [w_st]; rewrite put_same, ?sent_by_same, ?sent_by_cons, ?sent_by_nil; cbn [put_sent k_sent]; split; auto.
  all: specialize (S1 r eq_refl); cbn [filter rig_select is_rig]; destruct (50 <=? 50 + r) eqn:E2; [reflexivity|lia].
Qed.

Lemma bank_change_sent cfg fuel w o w' ev k c : cfg k = BankChange c -> wstep cfg fuel w o = Some (w', ev) -> k_sent (w_st w k) = None -> k_sent (w_st w' k) = None.
Proof.
  intros Hc H Hn.
  assert (D : (o <> Press k /\ o <> Let_go k) \/ o = Press k \/ o = Let_go k).
  { destruct o as [j|j|j|id]; try (left; split; discriminate); destruct (Nat.eq_dec j k) as [->|]; auto; left; split; congruence. }
  destruct D as [(D1 & D2) | [-> | ->]].
  - destruct (wstep_other _ _ _ _ _ _ k H D1 D2) as (_ & ->). auto.
  - cbn [wstep] in H. rewrite Hc in H. destruct (bank_change_push _ _ _ _) as [[sh m]|]; [|discriminate]. injection H as <- <-. auto.
  - cbn [wstep] in H. rewrite Hc in H. injection H as <- <-. auto.
Qed.

Lemma pairing_gen cfg fuel k : (forall j, good_cb (cfg j)) -> forall ops down w w' ev, sane w ->
  (forall c, cfg k = BankChange c -> k_sent (w_st w k) = None) -> (down = false -> k_sent (w_st w k) = None) ->
  alternates k down ops = true -> wrun cfg fuel w ops = Some (w', ev) ->
  exists rs, filter is_rig (sent_by k ev) = match k_sent (w_st w k) with Some r => [CC (50 + r) 0] | None => [] end ++ pairs rs /\ forall r, In r rs -> 0 <= r <= 4.
Proof.
  intros Hg. induction ops as [|o ops IH]; intros down w w' ev S Hb Hd Ha H.
  - cbn [wrun] in H. injection H as <- <-. cbn [alternates] in Ha. destruct down; [discriminate|]. rewrite (Hd eq_refl). exists []. split; [reflexivity|intros ? []].
  - cbn [wrun] in H. destruct (wstep cfg fuel w o) as [[w1 e1]|] eqn:E1; [|discriminate]. destruct (wrun cfg fuel w1 ops) as [[w2 e2]|] eqn:E2; [|discriminate].
    injection H as <- <-. rewrite sent_by_app, filter_app.
    assert (S' : sane w1) by (eapply step_sane; eauto).
    assert (Hb' : forall c, cfg k = BankChange c -> k_sent (w_st w1 k) = None) by (intros c Hc; eapply bank_change_sent; eauto).
    assert (D : (o <> Press k /\ o <> Let_go k) \/ o = Press k \/ o = Let_go k).
    { destruct o as [j|j|j|id]; try (left; split; discriminate); destruct (Nat.eq_dec j k) as [->|]; auto; left; split; congruence. }
    destruct D as [(D1 & D2) | [-> | ->]].
    + destruct (wstep_other _ _ _ _ _ _ k E1 D1 D2) as (X & Y). rewrite X.
      destruct (IH down w1 w2 e2) as (rs & R1 & R2); auto.
      { intros. rewrite Y. auto. }
      { cbn [alternates] in Ha. destruct o as [j|j|j|id]; auto; assert (Hj : j <> k) by congruence; apply Nat.eqb_neq in Hj; rewrite Hj in Ha; auto. }
      exists rs. rewrite Y in R1. auto.
    + cbn [alternates] in Ha. rewrite Nat.eqb_refl in Ha. apply andb_true_iff in Ha. destruct Ha as (Ha1 & Ha2). destruct down; [discriminate|].
      rewrite (press_messages _ _ _ _ _ _ Hg S E1 (Hd eq_refl)), (Hd eq_refl).
      destruct (IH true w1 w2 e2) as (rs & R1 & R2); auto; [discriminate|].
      rewrite R1. destruct (k_sent (w_st w1 k)) as [r|] eqn:Er; [|exists rs; auto].
      exists (r :: rs). split; [reflexivity|]. intros x [<-|]; auto. apply (S' k). auto.
    + cbn [alternates] in Ha. rewrite Nat.eqb_refl in Ha. apply andb_true_iff in Ha. destruct Ha as (-> & Ha2).
      destruct (release_messages _ _ _ _ _ _ S E1 Hb) as (X & Y). rewrite X.
      destruct (IH false w1 w2 e2) as (rs & R1 & R2); auto. rewrite Y in R1. exists rs. rewrite R1. auto.
Qed.

Lemma pairing cfg fuel ops w ev k : (forall j, good_cb (cfg j)) -> whistory cfg fuel ops w ev -> alternates k false ops = true ->
  exists rs, filter is_rig (sent_by k ev) = pairs rs /\ forall r, In r rs -> 0 <= r <= 4.
Proof.
  intros Hg H Ha.
  assert (Hn : k_sent (w_st (new_world cfg) k) = None) by (cbn [w_st new_world]; destruct (cfg k); reflexivity).
  destruct (pairing_gen cfg fuel k Hg ops false (new_world cfg) w ev) as (rs & R1 & R2); auto.
  { apply new_sane; auto. }
  exists rs. rewrite Hn in R1. auto.
Qed.

(* ---- bank selection ---- *)

Lemma bank_select_press c sent sh id sent' sh' ms : 0 <= id -> bs_push c (Some id) sent sh = (sent', sh', ms) ->
  let b := match (if bs_pre c then None else bs_bank_off c) with Some bo => if id / 5 =? bs_bank c - 1 then bo - 1 else bs_bank c - 1 | None => bs_bank c - 1 end in
  ms = (if bs_pre c then [CC 47 b] else [CC 47 b; CC (50 + id mod 5) 1]) /\
  forall p, react_all (mkDevice id p) ms = if bs_pre c then mkDevice id (Some b) else mkDevice (rig_id b (id mod 5)) None.
Proof.
  intros Hid H b. unfold bs_push, bs_off in H. rewrite bank_of_div, rig_of_mod in H by lia.
  assert (E : match (if bs_pre c then None else bs_bank_off c) with Some bo => if negb (id / 5 =? bs_bank c - 1) then bs_bank c - 1 else bo - 1 | None => bs_bank c - 1 end = b).
  { subst b. destruct (if bs_pre c then None else bs_bank_off c); auto. destruct (id / 5 =? bs_bank c - 1); reflexivity. }
  rewrite E in H. clear E. clearbody b. pose proof (Z.mod_pos_bound id 5). destruct (bs_pre c); injection H as <- <- <-; split; auto.
  intros p. unfold bank_select, rig_select. cbn [react_all fold_left]. rewrite react_bank, react_rig' by lia. reflexivity.
Qed.

(* ---- preselection shown and the device ---- *)

Lemma react_all_app d a b : react_all d (a ++ b) = react_all (react_all d a) b.
Proof. unfold react_all. apply fold_left_app. Qed.
Lemma snd_pair {A} (k : nat) (m : list A) : map snd (map (pair k) m) = m.
Proof. rewrite map_map. apply map_id. Qed.

Lemma release_keeps d r : 0 <= r <= 4 -> react d (CC (50 + r) 0) = d.
Proof. intros H. destruct d. assert (r = 0 \/ r = 1 \/ r = 2 \/ r = 3 \/ r = 4) as [-> | [-> | [-> | [-> | ->]]]] by lia; reflexivity. Qed.

Lemma presel_step cfg fuel w o w' ev d : (forall k, preselects (cfg k)) -> sane w -> wstep cfg fuel w o = Some (w', ev) ->
  (forall b, s_pre (w_sh w) = Some b -> d_pending d = Some b) ->
  forall b, s_pre (w_sh w') = Some b -> d_pending (react_all d (map snd ev)) = Some b.
Proof.
  intros Hp S H I b Hb. destruct o as [j|j|j|id]; cbn [wstep] in H.
  - specialize (Hp j). destruct (cfg j) as [up keep|c|c|c]; cbn [preselects] in Hp; [contradiction| | |].
    + unfold bank_change_push in H. rewrite Hp in H. destruct (w_id w) as [id|]; [destruct (next_bank _ _ _ _) as [n|]; [|discriminate]|]; injection H as <- <-; cbn [w_sh] in Hb; rewrite ?snd_pair; cbn [map snd].
      * cbn [s_pre] in Hb. injection Hb as <-. destruct d as [di dp]. reflexivity.
      * cbn. auto.
    + unfold rs_push in H. injection H as <- <-. discriminate.
    + unfold bs_push, bs_off in H. destruct (w_id w) as [id|]; [destruct (bs_pre c)|]; injection H as <- <-; cbn [w_sh s_pre] in Hb; rewrite ?snd_pair; cbn [map snd].
      * unfold bank_select. cbn [react_all fold_left]. destruct d as [di dp]. rewrite react_bank. cbn [d_pending].
        cbn [andb] in Hb. destruct (is_some (s_pre (w_sh w)) || _) eqn:E; [exact Hb|].
        destruct (s_pre (w_sh w)); discriminate.
      * discriminate.
      * cbn. auto.
  - destruct (S j) as (S1 & _). destruct (cfg j) as [up keep|c|c|c].
    2: { injection H as <- <-. cbn. auto. }
    all: unfold rs_release, release_sent in H; destruct (k_sent (w_st w j)) as [r|]; injection H as <- <-; cbn [w_sh s_pre] in Hb; rewrite ?snd_pair; cbn [map snd]; cbn [react_all fold_left]; auto.
    all: unfold rig_select; rewrite release_keeps by (apply S1; reflexivity); auto.
  - destruct (cfg j); injection H as <- <-; cbn; auto.
  - injection H as <- <-. cbn. auto.
Qed.

Lemma presel_run cfg fuel : (forall k, preselects (cfg k)) -> forall ops w w' ev d, sane w -> wrun cfg fuel w ops = Some (w', ev) ->
  (forall b, s_pre (w_sh w) = Some b -> d_pending d = Some b) ->
  sane w' /\ forall b, s_pre (w_sh w') = Some b -> d_pending (react_all d (map snd ev)) = Some b.
Proof.
  intros Hp. assert (Hg : forall k, good_cb (cfg k)).
  { intros k. specialize (Hp k). destruct (cfg k); cbn [good_cb preselects] in *; auto. }
  induction ops as [|o ops IH]; intros w w' ev d S H I.
  - cbn [wrun] in H. injection H as <- <-. auto.
  - cbn [wrun] in H. destruct (wstep cfg fuel w o) as [[w1 e1]|] eqn:E1; [|discriminate]. destruct (wrun cfg fuel w1 ops) as [[w2 e2]|] eqn:E2; [|discriminate].
    injection H as <- <-. rewrite map_app, react_all_app. apply (IH w1 w2 e2 (react_all d (map snd e1))); auto.
    + eapply step_sane; eauto.
    + eapply presel_step; eauto.
Qed.

Lemma preselected_shown cfg fuel ops w ev d b : (forall k, preselects (cfg k)) -> whistory cfg fuel ops w ev -> s_pre (w_sh w) = Some b ->
  d_pending (react_all d (map snd ev)) = Some b.
Proof.
  intros Hp H Hb. destruct (presel_run cfg fuel Hp ops (new_world cfg) w ev d) as (_ & R); auto.
  - apply new_sane. intros k. specialize (Hp k). destruct (cfg k); cbn [good_cb preselects] in *; auto.
  - discriminate.
Qed.

Lemma preselected_next cfg fuel ops w ev d b k c r : (forall k, preselects (cfg k)) -> whistory cfg fuel ops w ev -> s_pre (w_sh w) = Some b ->
  cfg k = RigSelect c -> rs_rig c = Some r ->
  exists w' m, wstep cfg fuel w (Press k) = Some (w', map (pair k) m) /\ s_pre (w_sh w') = None /\
    react_all (react_all d (map snd ev)) m = mkDevice (rig_id b (r - 1)) None.
Proof.
  intros Hp H Hb Hk Hr. pose proof (preselected_shown cfg fuel ops w ev d b Hp H Hb) as Hd.
  cbn [wstep]. rewrite Hk. unfold rs_push. rewrite Hb, Hr. cbn [is_some negb]. rewrite andb_false_r.
  eexists _, _. split; [reflexivity|]. split; [reflexivity|]. cbn [app react_all fold_left]. unfold rig_select.
  specialize (Hp k). rewrite Hk in Hp. destruct Hp as (G & _). rewrite Hr in G. cbn [good_opt] in G.
  destruct (react_all d (map snd ev)) as [di dp] eqn:E. cbn [d_pending] in Hd. subst dp. rewrite react_rig' by lia. reflexivity.
Qed.

(* ---- further ---- *)

Lemma keep_bank_ends up id : valid_id id -> neighbour up true id / 5 = id / 5 /\ (neighbour up true id = id <-> id mod 5 = if up then 4 else 0).
Proof. intros H. split; [apply keep_bank_kept; auto|]. unfold neighbour. destruct up; case_if; lia. Qed.

Lemma plain_presses c v fuel k sh : bc_pre c = false ->
  exists sh', presses fuel c v sh k = Some (sh', repeat (CC (if bc_up c then 48 else 49) 0) k) /\ s_pre sh' = s_pre sh.
Proof.
  intros Hp. revert sh. induction k as [|k IH]; intros sh; [exists sh; auto|]. cbn [presses]. unfold bank_change_push at 1. rewrite Hp.
  destruct (IH (mkShared (s_pre sh) (Some 0))) as (sh' & -> & E). exists sh'. split; auto.
Qed.

Lemma rs_unknown c s sh s' sh' ms r : rs_rig c = Some r -> rs_push c None s sh = (s', sh', ms) ->
  ms = (match rs_bank c, s_pre sh with Some b, None => [CC 47 (b - 1)] | _, _ => [] end) ++ [CC (50 + (r - 1)) 1] /\ s_pre sh' = None.
Proof.
  intros Hr H. unfold rs_push in H. rewrite Hr in H. cbn [rs_on andb] in H. injection H as <- <- <-. split; auto.
  destruct (s_pre sh), (rs_bank c), (k_bank_off s); reflexivity.
Qed.

Lemma bank_select_shown c sent sh id sent' sh' ms : 0 <= id -> bs_pre c = true -> bs_push c (Some id) sent sh = (sent', sh', ms) ->
  s_pre sh' = if (id / 5 =? bs_bank c - 1) then (match s_pre sh with Some _ => Some (bs_bank c - 1) | None => None end) else Some (bs_bank c - 1).
Proof.
  intros Hid Hp H. unfold bs_push in H. rewrite Hp, bank_of_div in H by lia. injection H as <- <- <-. cbn [s_pre andb].
  destruct (id / 5 =? bs_bank c - 1), (s_pre sh); reflexivity.
Qed.

Lemma run_sane cfg fuel : (forall k, good_cb (cfg k)) -> forall ops w w' ev, wrun cfg fuel w ops = Some (w', ev) -> sane w -> sane w'.
Proof.
  intros Hg. induction ops as [|o ops IH]; intros w w' ev H S; cbn [wrun] in H; [injection H as <- <-; auto|].
  destruct (wstep cfg fuel w o) as [[w1 e1]|] eqn:E1; [|discriminate]. destruct (wrun cfg fuel w1 ops) as [[w2 e2]|] eqn:E2; [|discriminate].
  injection H as <- <-. eapply IH; eauto. eapply step_sane; eauto.
Qed.

Lemma bank_change_run cfg fuel k c : cfg k = BankChange c -> forall ops w w' ev, wrun cfg fuel w ops = Some (w', ev) -> k_sent (w_st w k) = None -> k_sent (w_st w' k) = None.
Proof.
  intros Hc. induction ops as [|o ops IH]; intros w w' ev H S; cbn [wrun] in H; [injection H as <- <-; auto|].
  destruct (wstep cfg fuel w o) as [[w1 e1]|] eqn:E1; [|discriminate]. destruct (wrun cfg fuel w1 ops) as [[w2 e2]|] eqn:E2; [|discriminate].
  injection H as <- <-. eapply IH; eauto. eapply bank_change_sent; eauto.
Qed.

Lemma up_empty cfg fuel k : forall ops down w w' ev, (down = false -> k_sent (w_st w k) = None) ->
  (forall c, cfg k = BankChange c -> k_sent (w_st w k) = None) ->
  alternates k down ops = true -> wrun cfg fuel w ops = Some (w', ev) -> k_sent (w_st w' k) = None.
Proof.
  induction ops as [|o ops IH]; intros down w w' ev Hd Hb Ha H; cbn [wrun] in H.
  - injection H as <- <-. cbn [alternates] in Ha. destruct down; [discriminate|auto].
  - destruct (wstep cfg fuel w o) as [[w1 e1]|] eqn:E1; [|discriminate]. destruct (wrun cfg fuel w1 ops) as [[w2 e2]|] eqn:E2; [|discriminate].
    injection H as <- <-.
    assert (Hb' : forall c, cfg k = BankChange c -> k_sent (w_st w1 k) = None) by (intros c Hc; eapply bank_change_sent; eauto).
    assert (D : (o <> Press k /\ o <> Let_go k) \/ o = Press k \/ o = Let_go k).
    { destruct o as [j|j|j|id]; try (left; split; discriminate); destruct (Nat.eq_dec j k) as [->|]; auto; left; split; congruence. }
    destruct D as [(D1 & D2) | [-> | ->]].
    + destruct (wstep_other _ _ _ _ _ _ k E1 D1 D2) as (X & Y). apply (IH down w1 w2 e2); auto.
      * intros. rewrite Y. auto.
      * cbn [alternates] in Ha. destruct o as [j|j|j|id]; auto; assert (Hj : j <> k) by congruence; apply Nat.eqb_neq in Hj; rewrite Hj in Ha; auto.
    + cbn [alternates] in Ha. rewrite Nat.eqb_refl in Ha. apply andb_true_iff in Ha. destruct Ha as (Ha1 & Ha2). apply (IH true w1 w2 e2); auto. discriminate.
    + cbn [alternates] in Ha. rewrite Nat.eqb_refl in Ha. apply andb_true_iff in Ha. destruct Ha as (-> & Ha2). apply (IH false w1 w2 e2); auto.
      intros _. cbn [wstep] in E1. destruct (cfg k) as [up keep|c|c|c].
      2: { eapply Hb'. reflexivity. }
      all: unfold rs_release, release_sent in E1; destruct (k_sent (w_st w k)) as [r|]; injection E1 as <- <-; cbn [w_st]; rewrite put_same; reflexivity.
Qed.

Lemma new_sent cfg k : k_sent (w_st (new_world cfg) k) = None.
Proof. cbn [w_st new_world]; destruct (cfg k); reflexivity. Qed.

Lemma press_release cfg fuel ops w ev k w1 e1 w2 e2 : (forall j, good_cb (cfg j)) -> whistory cfg fuel ops w ev -> alternates k false ops = true ->
  wstep cfg fuel w (Press k) = Some (w1, e1) -> wstep cfg fuel w1 (Let_go k) = Some (w2, e2) ->
  forall r, In (CC (50 + r) 1) (sent_by k e1) -> 0 <= r -> filter is_rig (sent_by k e2) = [CC (50 + r) 0].
Proof.
  intros Hg H Ha H1 H2 r Hin Hr. pose proof (new_sent cfg k) as Hn.
  assert (S : sane w) by (eapply run_sane; eauto using new_sane).
  assert (E : k_sent (w_st w k) = None) by (eapply (up_empty cfg fuel k ops false); eauto).
  assert (S1 : sane w1) by (eapply step_sane; eauto).
  destruct (release_messages cfg fuel w1 w2 e2 k S1 H2) as (-> & _). { intros c Hc. eapply bank_change_sent; eauto. }
  pose proof (press_messages cfg fuel w w1 e1 k Hg S H1 E) as P.
  assert (Hf : In (CC (50 + r) 1) (filter is_rig (sent_by k e1))) by (apply filter_In; split; auto; cbn [is_rig]; lia).
  rewrite P in Hf. destruct (k_sent (w_st w1 k)) as [x|]; [|destruct Hf]. destruct Hf as [F|[]]. injection F as F. replace x with r by lia. reflexivity.
Qed.

Lemma preselect_no_rig cfg fuel ops w ev k c : cfg k = BankSelect c -> bs_pre c = true -> whistory cfg fuel ops w ev -> filter is_rig (sent_by k ev) = [].
Proof.
  intros Hk Hp. unfold whistory. generalize (new_sent cfg k). generalize (new_world cfg) as w0. revert w ev.
  induction ops as [|o ops IH]; intros w ev w0 Hn H; cbn [wrun] in H; [injection H as <- <-; reflexivity|].
  destruct (wstep cfg fuel w0 o) as [[w1 e1]|] eqn:E1; [|discriminate]. destruct (wrun cfg fuel w1 ops) as [[w2 e2]|] eqn:E2; [|discriminate].
  injection H as <- <-. rewrite sent_by_app, filter_app.
  assert (X : filter is_rig (sent_by k e1) = [] /\ k_sent (w_st w1 k) = None).
  { assert (D : (o <> Press k /\ o <> Let_go k) \/ o = Press k \/ o = Let_go k).
    { destruct o as [j|j|j|id]; try (left; split; discriminate); destruct (Nat.eq_dec j k) as [->|]; auto; left; split; congruence. }
    destruct D as [(D1 & D2) | [-> | ->]].
    - destruct (wstep_other _ _ _ _ _ _ k E1 D1 D2) as (X & Y). rewrite X, Y. auto.
    - cbn [wstep] in E1. rewrite Hk in E1. unfold bs_push in E1. rewrite Hp in E1. destruct (w_id w0); injection E1 as <- <-; cbn [w_st]; rewrite put_same, ?sent_by_cons; auto.
    - cbn [wstep] in E1. rewrite Hk, Hn in E1. cbn [release_sent] in E1. injection E1 as <- <-. cbn [w_st]. rewrite put_same. auto. }
  destruct X as (-> & X). cbn [app]. eapply IH; eauto.
Qed.

Lemma filter_last {A} (p : A -> bool) l x y d : p x = true -> p y = false -> last (filter p (l ++ [x; y])) d = x.
Proof. intros H1 H2. rewrite filter_app. cbn [filter]. rewrite H1, H2. apply last_last. Qed.

Lemma auto_return cfg fuel ops w ev k c a b r : cfg k = RigSelect c -> good_rs c -> rs_rig c = Some r -> rs_rig_off c = OAuto ->
  existsb (Z.eqb (a mod 5 + 1)) (rs_exclude c) = false -> a mod 5 + 1 <> r ->
  (rs_bank c = None /\ a / 5 = b / 5 \/ exists n, rs_bank c = Some n /\ rs_bank_off c = OAuto /\ a / 5 + 1 <> n) ->
  already_there c b = true ->
  reports_valid (ops ++ [Report (Some a); Draw k; Report (Some b); Draw k]) ->
  whistory cfg fuel (ops ++ [Report (Some a); Draw k; Report (Some b); Draw k]) w ev -> s_pre (w_sh w) = None ->
  exists w' m, wstep cfg fuel w (Press k) = Some (w', map (pair k) m) /\ react_all (mkDevice b None) m = mkDevice a None.
Proof.
  intros Hk Hg Hr Ho Hx Ha Hb Hthere Hv H Hp.
  assert (Hid : w_id w = Some b).
  { destruct (off_tracked cfg fuel k c Hk _ w ev H Hv) as (-> & _). rewrite last_report_app. reflexivity. }
  destruct (rs_press_history cfg fuel _ w ev k c b Hk Hg H Hv Hid) as (w' & bm & rm & P1 & P2 & P3 & _).
  exists w', (bm ++ [CC (50 + rm) 1]). split; auto. rewrite Hp in P3. rewrite P3. f_equal.
  assert (Hd : drawn k None (ops ++ [Report (Some a); Draw k; Report (Some b); Draw k]) = drawn k None ops ++ [a; b]).
  { rewrite drawn_app. cbn [drawn last_report]. rewrite Nat.eqb_refl. reflexivity. }
  rewrite Hd. unfold target. rewrite Hthere. unfold already_there in Hthere. rewrite Hr in Hthere. apply andb_true_iff in Hthere. destruct Hthere as (T1 & T2).
  assert (Hro : off_rig c (drawn k None ops ++ [a; b]) = Some (a mod 5 + 1)).
  { unfold off_rig. rewrite Ho, Hr, map_app. cbn [map]. f_equal. apply filter_last.
    - rewrite Hx. destruct (Z.eqb_spec (a mod 5 + 1) r); [contradiction|reflexivity].
    - destruct (Z.eqb_spec (b mod 5 + 1) r); [reflexivity|lia]. }
  rewrite Hro. cbn [number]. unfold rig_id. destruct Hb as [(E & Hb) | (n & E & Hbo & Hb)]; rewrite E in *.
  - lia.
  - assert (Hbk : off_bank c (drawn k None ops ++ [a; b]) = Some (a / 5 + 1)).
    { unfold off_bank. rewrite Hbo, E, map_app. cbn [map]. f_equal. apply filter_last.
      - destruct (Z.eqb_spec (a / 5 + 1) n); [contradiction|reflexivity].
      - destruct (Z.eqb_spec (b / 5 + 1) n); [reflexivity|lia]. }
    rewrite Hbk. cbn [number]. lia.
Qed.
