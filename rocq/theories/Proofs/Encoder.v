From Verif.Lib Require Import Base.
From Verif.Model Require Import Midi Encoder.
From Verif.Spec Require Import Encoder.

Lemma clamp_nearest lo hi v : lo <= hi -> clamp lo hi v = nearest lo hi v.
Proof. unfold clamp, nearest. intros. destruct (Z.ltb_spec v lo); destruct (Z.ltb_spec hi (if v <? lo then lo else v)); destruct (Z.ltb_spec v lo); try lia; case_if; lia. Qed.

Lemma erun_app c ops1 : forall x ops2, erun c x (ops1 ++ ops2) =
  match erun c x ops1 with Raise => Raise | Ok (x1, e1) => match erun c x1 ops2 with Raise => Raise | Ok (x2, e2) => Ok (x2, e1 ++ e2) end end.
Proof.
  induction ops1 as [|o ops1 IH]; intros x ops2; cbn [app erun].
  - destruct (erun c x ops2) as [[? ?]|]; reflexivity.
  - destruct (estep c x o) as [[x1 e1]|]; auto. rewrite IH. destruct (erun c x1 ops1) as [[x2 e2]|]; auto. destruct (erun c x2 ops2) as [[x3 e3]|]; auto. rewrite app_assoc. reflexivity.
Qed.

Lemma reached_snoc c ops o x : reached c (ops ++ [o]) x -> exists x0 ev, reached c ops x0 /\ estep c x0 o = Ok (x, ev).
Proof.
  intros [ev H]. rewrite erun_app in H. destruct (erun c new_enc ops) as [[x0 e0]|] eqn:E0; [|discriminate]. cbn in H.
  destruct (estep c x0 o) as [[x1 e1]|] eqn:E1; [|discriminate]. injection H as <- <-. exists x0, e1. split; [exists e0; auto|auto].
Qed.

Lemma reached_step c ops o x0 x ev : reached c ops x0 -> estep c x0 o = Ok (x, ev) -> reached c (ops ++ [o]) x.
Proof. intros [e0 H] H1. exists (e0 ++ ev). rewrite erun_app, H. cbn. rewrite H1, app_nil_r. reflexivity. Qed.

(* ---- frames ---- *)
Lemma cancel_frame c b x x' e : cancel c b x = Ok (x', e) -> x_pos x' = x_pos x /\ x_val x' = x_val x /\ x_active x' = false /\ get_value c x = Ok (x_last x') /\ sets e = [] /\ x_watch x' = x_watch x /\ x_seen x' = x_seen x.
Proof.
  unfold cancel. destruct (get_value c x) as [v|] eqn:E; [|discriminate]. intros H. injection H as <- <-. cbn. split; [auto|]. split; [auto|]. split; [auto|]. split; [auto|]. split; [destruct (e_preview c); reflexivity|auto].
Qed.

Lemma get_put c x v : get_value c (put_value c x v) = Ok (Some v).
Proof. unfold get_value, put_value. cbn. destruct (e_bank c); auto. unfold rigs_per_bank. do 2 f_equal. rewrite Z.quot_mul; lia. Qed.

Lemma accept_spec c x x' e : accept c x = Ok (x', e) ->
  (sets e = [] /\ x' = x /\ (x_last x = Some (-1) \/ (e_pre c = true /\ x_active x = false))) \/
  (exists v, x_last x = Some v /\ v <> -1 /\ (e_pre c = true -> x_active x = true) /\ sets e = [v] /\ get_value c x' = Ok (Some v) /\ x_last x' = Some v /\ x_active x' = false /\ x_pos x' = x_pos x /\
    x_val x' = Some (if e_bank c then v * rigs_per_bank else v) /\ x_watch x' = x_watch x /\ x_seen x' = x_seen x).
Proof.
  unfold accept, base_accept. destruct (is_minus_one (x_last x)) eqn:E1.
  - assert (L : x_last x = Some (-1)) by (destruct (x_last x); cbn in E1; [|discriminate]; f_equal; lia).
    intros H. left. rewrite L in H. destruct (negb (e_bank c)); [|change (-1 =? -1) with true in H; cbv iota in H]; injection H as <- <-; auto.
  - destruct (e_pre c && negb (x_active x)) eqn:E2.
    + apply andb_true_iff in E2. destruct E2 as [E2 E3]. apply negb_true_iff in E3. intros H. left.
      destruct (negb (e_bank c)); [injection H as <- <-; auto|]. destruct (x_last x) as [v|]; [destruct (v =? -1)|]; injection H as <- <-; auto.
    + destruct (x_last x) as [v|] eqn:El; [|discriminate]. destruct (cancel c false (put_value c x v)) as [[y ey]|] eqn:Ec; [|discriminate].
      apply cancel_frame in Ec. rewrite get_put in Ec. destruct Ec as (C1 & C2 & C3 & C4 & C5 & C6 & C7). injection C4 as C4. cbn in C1, C2, C6, C7.
      intros H. right. exists v. cbn in E1. assert (v <> -1) by lia.
      assert (H' : x' = y /\ sets e = [v]).
      { destruct (negb (e_bank c)); [injection H as <- <-; unfold sets in *; cbn; rewrite C5; auto|]. rewrite <- C4 in H. destruct (v =? -1); injection H as <- <-; unfold sets in *; cbn; rewrite ?flat_map_app, C5; auto. }
      destruct H' as [-> Hs]. split; auto. split; auto. split. { intros Hp. rewrite Hp in E2. cbn in E2. destruct (x_active x); auto. }
      split; auto. split. { rewrite <- (get_put c x v). unfold get_value. rewrite C2. reflexivity. }
      rewrite <- C4. auto 10.
Qed.

Lemma check_watch_frame c x x' e : check_watch c x = Ok (x', e) -> x_pos x' = x_pos x /\ x_val x' = x_val x /\ sets e = [] /\
  (x' = x \/ (x_last x' = x_last x /\ x_active x' = x_active x) \/ (x_active x' = false /\ get_value c x = Ok (x_last x'))) /\
  (e_pre c = false -> x' = x /\ e = []) /\ (e_watch c = false -> x' = x /\ e = []).
Proof.
  unfold check_watch. destruct (e_preview c && e_pre c && e_watch c) eqn:Eb.
  - apply andb_true_iff in Eb. destruct Eb as [Eb Ew]. apply andb_true_iff in Eb. destruct Eb as [_ Ep].
    destruct (opt_eqb _ _); [intros H; injection H as <- <-; auto 10|].
    destruct (known (x_watch x) && known (x_seen x)).
    + destruct (cancel c true x) as [[y ey]|] eqn:Ec; [|discriminate]. intros H. injection H as <- <-. apply cancel_frame in Ec. destruct Ec as (C1 & C2 & C3 & C4 & C5 & _). cbn.
      split; auto. split; auto. split; auto. split; [auto|]. split; congruence.
    + intros H. injection H as <- <-. cbn. split; auto. split; auto. split; auto. split; [auto|]. split; congruence.
  - intros H. injection H as <- <-. auto 10.
Qed.

(* the stored position is always that of the last poll *)
Lemma process_pos c x p x' e : process c x p = Ok (x', e) -> x_pos x' = scaled c p.
Proof.
  unfold process. set (x0 := if x_pos x =? -1 then _ else x). destruct (check_watch c x0) as [[x1 e1]|] eqn:E1; [|discriminate].
  destruct (Z.eqb_spec (x_pos x1) (scaled c p)) as [Hp|Hp]; [intros H; injection H as <- <-; auto|].
  destruct (get_value c x1) as [w|]; [|discriminate].
  set (x3 := mkEnc (scaled c p) _ _ _ _ _).
  destruct (if negb (e_pre c) then get_value c x3 else Ok (x_last x3)) as [[base|]|]; try discriminate.
  destruct (opt_eqb _ _); [intros H; injection H as <- <-; reflexivity|].
  match goal with |- context [accept c ?y] => set (x4 := y) end.
  destruct (negb (e_pre c)).
  - destruct (accept c x4) as [[x5 e5]|] eqn:Ea; [|discriminate]. intros H. injection H as <- <-. apply accept_spec in Ea. destruct Ea as [(_ & -> & _)|(v & _ & _ & _ & _ & _ & _ & _ & E & _)]; [reflexivity|rewrite E; reflexivity].
  - intros H. injection H as <- <-. reflexivity.
Qed.

Lemma last_turn_snoc ops o : last_turn (ops ++ [o]) = match o with Turn p => Some p | _ => last_turn ops end.
Proof. unfold last_turn. rewrite fold_left_app. reflexivity. Qed.

Lemma reached_pos c ops : forall x, reached c ops x -> x_pos x = match last_turn ops with Some p => scaled c p | None => -1 end.
Proof.
  induction ops as [|ops o IH] using rev_ind_snoc; intros x H.
  - destruct H as [ev H]. injection H as <- <-. reflexivity.
  - apply reached_snoc in H. destruct H as (x0 & ev & H0 & H1). specialize (IH _ H0). rewrite last_turn_snoc. destruct o as [p| | |v|v]; cbn [estep] in H1.
    + eapply process_pos; eauto.
    + apply accept_spec in H1. destruct H1 as [(_ & -> & _)|(v & _ & _ & _ & _ & _ & _ & _ & E & _)]; [auto|congruence].
    + apply cancel_frame in H1. destruct H1 as (E & _). congruence.
    + injection H1 as <- <-. auto.
    + injection H1 as <- <-. auto.
Qed.

(* ---- direct mode ---- *)

(* What a poll of a direct encoder does, by the state before *)
Lemma direct_process c x p x' e : e_pre c = false -> process c x p = Ok (x', e) ->
  (x_pos x = -1 \/ x_pos x = scaled c p -> e = [] /\ x_val x' = x_val x /\ x_last x' = x_last x) /\
  (x_pos x <> -1 -> x_pos x <> scaled c p -> exists w, current c x = Some w /\
     let v := clamp (e_min c) (e_max c) (w + (scaled c p - x_pos x)) in
     (v = -1 \/ x_last x = Some v -> sets e = [] /\ get_value c x' = Ok (Some w) /\ x_last x' = Some v) /\
     (v <> -1 -> x_last x <> Some v -> sets e = [v] /\ get_value c x' = Ok (Some v) /\ x_last x' = Some v)).
Proof.
  intros Hd. unfold process. set (x0 := if x_pos x =? -1 then _ else x). destruct (check_watch c x0) as [[x1 e1]|] eqn:E1; [|discriminate].
  apply check_watch_frame in E1. destruct E1 as (_ & _ & _ & _ & E1 & _). destruct (E1 Hd) as [-> ->]. clear E1.
  destruct (Z.eqb_spec (x_pos x) (-1)) as [Hm|Hm].
  { subst x0. cbn [x_pos]. rewrite Z.eqb_refl. intros H. injection H as <- <-. cbn. split; [auto|tauto]. }
  subst x0. destruct (Z.eqb_spec (x_pos x) (scaled c p)) as [Hp|Hp]; [intros H; injection H as <- <-; tauto|].
  intros H. split; [intros [?|?]; contradiction|]. intros _ _. rewrite Hd in H. cbn [negb] in H. unfold current.
  destruct (get_value c x) as [w|] eqn:Eg; [|discriminate].
  set (x2 := match w with None => put_value c x 0 | Some _ => x end) in *.
  set (w' := match w with Some v => v | None => 0 end).
  assert (P2 : x_pos x2 = x_pos x /\ x_last x2 = x_last x) by (unfold x2; destruct w; auto).
  assert (G : forall q l a s, get_value c (mkEnc q l a s (x_val x2) (x_watch x2)) = Ok (Some w')).
  { intros. unfold x2, w'. destruct w as [w|]; [exact Eg|]. exact (get_put c x 0). }
  rewrite G in H. destruct P2 as [P2 P2']. rewrite P2 in H. cbn [x_last x_pos] in H. rewrite P2' in H.
  exists w'. split; [unfold w'; destruct w; auto|]. cbv zeta. set (v := clamp (e_min c) (e_max c) (w' + (scaled c p - x_pos x))) in *.
  destruct (opt_eqb (x_last x) (Some v)) eqn:Eo.
  - injection H as <- <-. assert (x_last x = Some v) by (destruct (x_last x); cbn in Eo; [f_equal; lia|discriminate]). split; [intros _; split; [reflexivity|split; [apply G|auto]]|tauto].
  - assert (Hl : x_last x <> Some v) by (intros E; rewrite E in Eo; cbn in Eo; lia).
    match type of H with context [accept c ?y] => destruct (accept c y) as [[x5 e5]|] eqn:Ea end; [|discriminate]. injection H as <- <-. cbn [app].
    assert (S : sets (e5 ++ (if e_preview c then [EShow v] else [])) = sets e5) by (unfold sets; rewrite flat_map_app; destruct (e_preview c); cbn; rewrite app_nil_r; reflexivity).
    rewrite S. apply accept_spec in Ea. cbn [x_last x_pos x_active] in Ea. destruct Ea as [(A1 & -> & A2)|(v' & A1 & A2 & _ & A3 & A4 & A5 & _)].
    + destruct A2 as [A2|[A2 _]]; [|congruence]. injection A2 as A2. split; [intros _; split; [auto|split; [apply G|reflexivity]]|tauto].
    + injection A1 as <-. split; [intros [?|?]; contradiction|auto].
Qed.

Lemma accept_total c x v : x_last x = Some v -> accept c x <> Raise.
Proof.
  intros L. assert (B : exists y, base_accept c x = Ok y).
  { unfold base_accept. rewrite L. destruct (is_minus_one _); [eauto|]. destruct (e_pre c && negb (x_active x)); [eauto|].
    unfold cancel. rewrite get_put. eauto. }
  destruct B as [[y ey] B]. unfold accept. rewrite B. destruct (negb (e_bank c)); [discriminate|]. destruct (x_last y) as [u|]; [destruct (u =? -1)|]; discriminate.
Qed.

(* direct encoders on plain mappings never fail; bank encoders do not once the value is known *)
Lemma direct_total c x p : e_pre c = false -> (e_bank c = true -> x_val x <> None) -> process c x p <> Raise.
Proof.
  intros Hd Hb. unfold process. set (x0 := if x_pos x =? -1 then _ else x).
  assert (E1 : check_watch c x0 = Ok (x0, [])) by (unfold check_watch; rewrite Hd, andb_false_r; reflexivity). rewrite E1.
  destruct (x_pos x0 =? scaled c p); [discriminate|]. rewrite Hd. cbn [negb].
  assert (Hv : x_val x0 = x_val x) by (unfold x0; destruct (x_pos x =? -1); auto).
  destruct (get_value c x0) as [w|] eqn:Eg; [|unfold get_value in Eg; rewrite Hv in Eg; destruct (e_bank c); [destruct (x_val x); [discriminate|exfalso; apply Hb; auto]|discriminate]].
  set (x2 := match w with None => put_value c x0 0 | Some _ => x0 end) in *.
  set (w' := match w with Some v => v | None => 0 end).
  assert (G : forall q l a s, get_value c (mkEnc q l a s (x_val x2) (x_watch x2)) = Ok (Some w')).
  { intros. unfold x2, w'. destruct w as [w|]; [exact Eg|]. exact (get_put c x0 0). }
  rewrite G. destruct (opt_eqb _ _); [discriminate|].
  match goal with |- context [accept c ?y] => set (x4 := y) end.
  assert (A : accept c x4 <> Raise) by (eapply accept_total; reflexivity). destruct (accept c x4) as [[? ?]|]; [discriminate|contradiction].
Qed.

(* ---- C33 ---- *)
Lemma C33_main c ops x p x' e : e_pre c = false -> e_min c <= e_max c -> reached c ops x -> process c x p = Ok (x', e) ->
  sets e = [] \/
  exists prev w v, last_turn ops = Some prev /\ scaled c prev <> scaled c p /\ current c x = Some w /\
    v = nearest (e_min c) (e_max c) (w + (scaled c p - scaled c prev)) /\ sets e = [v] /\ current c x' = Some v.
Proof.
  intros Hd Hm Hr Hp. pose proof (reached_pos _ _ _ Hr) as Hpos. destruct (direct_process _ _ _ _ _ Hd Hp) as [D1 D2].
  destruct (Z.eq_dec (x_pos x) (-1)) as [E|E]; [left; destruct (D1 (or_introl E)) as (-> & _); reflexivity|].
  destruct (Z.eq_dec (x_pos x) (scaled c p)) as [E'|E']; [left; destruct (D1 (or_intror E')) as (-> & _); reflexivity|].
  destruct (D2 E E') as (w & Hw & A & B). cbv zeta in A, B.
  destruct (last_turn ops) as [prev|]; [|congruence]. rewrite Hpos in *. rewrite clamp_nearest in A, B by auto. set (v := nearest _ _ _) in *.
  destruct (Z.eq_dec v (-1)) as [V|V]; [left; apply A; auto|].
  destruct (opt_eqb (x_last x) (Some v)) eqn:Eo.
  - left. apply A. right. destruct (x_last x); cbn in Eo; [f_equal; lia|discriminate].
  - right. assert (Hl : x_last x <> Some v) by (intros El; rewrite El in Eo; cbn in Eo; lia). destruct (B V Hl) as (B1 & B2 & B3). exists prev, w, v.
    split; auto. split; [auto|]. split; auto. split; auto. split; auto. unfold current. rewrite B2. reflexivity.
Qed.

Lemma C33_still c ops x p x' e : e_pre c = false -> reached c ops x -> process c x p = Ok (x', e) ->
  (last_turn ops = None \/ exists prev, last_turn ops = Some prev /\ scaled c prev = scaled c p) -> e = [] /\ x_val x' = x_val x.
Proof.
  intros Hd Hr Hp Hc. pose proof (reached_pos _ _ _ Hr) as Hpos. destruct (direct_process _ _ _ _ _ Hd Hp) as [D1 _].
  destruct D1 as (A & B & _); [|auto]. destruct Hc as [E|(prev & E & E')]; rewrite E in Hpos; [auto|right; congruence].
Qed.

(* ---- C35: what the reference value is ---- *)
(* since the last send/cancel there was no report, or nothing was ever sent or cancelled *)
Definition insync (c : econf) (x : enc) : Prop := x_last x = Some (-1) \/ x_last x = None \/ get_value c x = Ok (x_last x).

Lemma insync_step c x o x' e : e_pre c = false -> 0 <= e_min c -> e_min c <= e_max c -> is_report o = false -> insync c x -> estep c x o = Ok (x', e) -> insync c x'.
Proof.
  intros Hd H0 Hm Hrep Hs H. destruct o as [p| | |v|v]; cbn [estep is_report] in *; try discriminate.
  - destruct (direct_process _ _ _ _ _ Hd H) as [D1 D2].
    assert (Kv : x_val x' = x_val x -> x_last x' = x_last x -> insync c x') by (intros A B; unfold insync, get_value in *; rewrite A, B; auto).
    destruct (Z.eq_dec (x_pos x) (-1)) as [E|E]; [destruct (D1 (or_introl E)) as (_ & A & B); auto|].
    destruct (Z.eq_dec (x_pos x) (scaled c p)) as [E'|E']; [destruct (D1 (or_intror E')) as (_ & A & B); auto|].
    destruct (D2 E E') as (w & Hw & A & B). cbv zeta in A, B. rewrite clamp_nearest in A, B by auto. set (v := nearest _ _ _) in *. assert (v <> -1) by (unfold v, nearest; lia).
    destruct (opt_eqb (x_last x) (Some v)) eqn:Eo.
    + assert (El : x_last x = Some v) by (destruct (x_last x); cbn in Eo; [f_equal; lia|discriminate]). destruct (A (or_intror El)) as (_ & Hg & Hl).
      destruct Hs as [Hs|[Hs|Hs]]; [rewrite Hs in El; congruence|congruence|].
      right. right. rewrite Hg, Hl. unfold current in Hw. rewrite Hs, El in Hw. congruence.
    + match goal with N : v <> -1 |- _ => destruct (B N) as (_ & B2 & B3) end; [intros El; rewrite El in Eo; cbn in Eo; lia|]. right. right. congruence.
  - apply accept_spec in H. destruct H as [(_ & -> & _)|(v & _ & _ & _ & _ & G & L & _)]; auto. right. right. congruence.
  - apply cancel_frame in H. destruct H as (_ & Ev & _ & G & _). right. right. unfold get_value in *. rewrite Ev. auto.
  - injection H as <- <-. exact Hs.
Qed.

Lemma direct_quiet c ops x : e_pre c = false -> 0 <= e_min c -> e_min c <= e_max c -> forall ev, erun c new_enc ops = Ok (x, ev) -> sets ev = [] -> (forall o, In o ops -> o <> Cancel) -> x_last x = Some (-1).
Proof.
  intros Hd H0 Hm. revert x. induction ops as [|ops o IH] using rev_ind_snoc; intros x ev H Hs Hc.
  - injection H as <- <-. reflexivity.
  - rewrite erun_app in H. destruct (erun c new_enc ops) as [[x0 e0]|] eqn:E0; [|discriminate]. cbn in H.
    destruct (estep c x0 o) as [[x1 e1]|] eqn:E1; [|discriminate]. injection H as <- <-. rewrite app_nil_r in Hs. unfold sets in *. rewrite flat_map_app in Hs. apply app_eq_nil in Hs. destruct Hs as [Hs0 Hs1].
    assert (L : x_last x0 = Some (-1)) by (eapply IH; eauto; intros o' Ho; apply Hc; apply in_or_app; auto).
    destruct o as [p| | |v|v]; cbn [estep] in E1.
    + destruct (direct_process _ _ _ _ _ Hd E1) as [D1 D2].
      destruct (Z.eq_dec (x_pos x0) (-1)) as [E|E]; [destruct (D1 (or_introl E)) as (_ & A & B); congruence|].
      destruct (Z.eq_dec (x_pos x0) (scaled c p)) as [E'|E']; [destruct (D1 (or_intror E')) as (_ & A & B); congruence|].
      destruct (D2 E E') as (w & Hw & A & B). cbv zeta in A, B. rewrite clamp_nearest in A, B by auto. set (v := nearest _ _ _) in *. assert (N : v <> -1) by (unfold v, nearest; lia).
      destruct (B N) as (B1 & _); [congruence|]. unfold sets in B1. congruence.
    + apply accept_spec in E1. destruct E1 as [(_ & -> & _)|(v & L' & N & _)]; auto. congruence.
    + exfalso. apply (Hc Cancel); [apply in_or_app; right; left; auto|auto].
    + injection E1 as <- <-. auto.
    + injection E1 as <- <-. auto.
Qed.

Lemma settled_insync c ops x : e_pre c = false -> 0 <= e_min c -> e_min c <= e_max c -> reached c ops x -> settled c ops -> insync c x.
Proof.
  intros Hd H0 Hm [ev H] [(ops1 & o & ops2 & x0 & x1 & e1 & -> & H1 & Hstep & Hk & Hn)|[Hs Hc]].
  - assert (I1 : insync c x1).
    { destruct Hk as [->|Hk]; [cbn in Hstep; apply cancel_frame in Hstep; destruct Hstep as (_ & Ev & _ & G & _); right; right; unfold get_value in *; rewrite Ev; auto|].
      destruct o as [p| | |v|v]; cbn [estep] in Hstep.
      - destruct (direct_process _ _ _ _ _ Hd Hstep) as [D1 D2].
        destruct (Z.eq_dec (x_pos x0) (-1)) as [E|E]; [destruct (D1 (or_introl E)) as (-> & _); contradiction|].
        destruct (Z.eq_dec (x_pos x0) (scaled c p)) as [E'|E']; [destruct (D1 (or_intror E')) as (-> & _); contradiction|].
        destruct (D2 E E') as (w & Hw & A & B). cbv zeta in A, B. set (v := clamp _ _ _) in *.
        destruct (Z.eq_dec v (-1)) as [N|N]; [destruct (A (or_introl N)); contradiction|].
        destruct (opt_eqb (x_last x0) (Some v)) eqn:Eo.
        + assert (El : x_last x0 = Some v) by (destruct (x_last x0); cbn in Eo; [f_equal; lia|discriminate]). destruct (A (or_intror El)); contradiction.
        + destruct (B N) as (_ & B2 & B3); [intros El; rewrite El in Eo; cbn in Eo; lia|]. right. right. congruence.
      - apply accept_spec in Hstep. destruct Hstep as [(? & _)|(v & _ & _ & _ & _ & G & L & _)]; [contradiction|]. right. right. congruence.
      - apply cancel_frame in Hstep. destruct Hstep as (_ & _ & _ & _ & ? & _). contradiction.
      - injection Hstep as <- <-. contradiction.
      - injection Hstep as <- <-. contradiction. }
    destruct H1 as [e0 H1]. rewrite erun_app, H1 in H. cbn [erun] in H. rewrite Hstep in H.
    destruct (erun c x1 ops2) as [[x2 e2]|] eqn:E2; [|discriminate]. injection H as <- _. clear Hstep H1 Hk.
    revert x1 e2 E2 I1. induction ops2 as [|o2 ops2 IH]; intros x1 e2 E2 I1; cbn [erun] in E2; [injection E2 as <- <-; auto|].
    destruct (estep c x1 o2) as [[y ey]|] eqn:Es; [|discriminate]. destruct (erun c y ops2) as [[z ez]|] eqn:Ez; [|discriminate]. injection E2 as <- <-.
    eapply IH; eauto; [intros o' Ho; apply Hn; right; auto|]. eapply insync_step; eauto. apply Hn. left. auto.
  - left. eapply direct_quiet; eauto.
Qed.

(* C35: with non-negative limits, an encoder away from position -1 whose value was not changed by the device in the meantime *)
Lemma C35_main c ops x p prev w x' e : e_pre c = false -> 0 <= e_min c -> e_min c <= e_max c -> reached c ops x -> settled c ops ->
  last_turn ops = Some prev -> scaled c prev <> -1 -> current c x = Some w ->
  e_min c <= w + (scaled c p - scaled c prev) <= e_max c -> scaled c p <> scaled c prev ->
  process c x p = Ok (x', e) ->
  sets e = [w + (scaled c p - scaled c prev)] /\ current c x' = Some (w + (scaled c p - scaled c prev)).
Proof.
  intros Hd H0 Hm Hr Hset Hl Hn Hw Hlim Hmv Hp. pose proof (settled_insync _ _ _ Hd H0 Hm Hr Hset) as Hi.
  pose proof (reached_pos _ _ _ Hr) as Hpos. rewrite Hl in Hpos. destruct (direct_process _ _ _ _ _ Hd Hp) as [_ D2].
  destruct D2 as (w' & Hw' & A & B); [congruence|congruence|]. rewrite Hw in Hw'. injection Hw' as <-. cbv zeta in B. rewrite clamp_nearest in B by auto. rewrite Hpos in B.
  assert (Ev : nearest (e_min c) (e_max c) (w + (scaled c p - scaled c prev)) = w + (scaled c p - scaled c prev)) by (unfold nearest; lia). rewrite Ev in B.
  destruct B as (B1 & B2 & B3); [lia| |split; auto; unfold current; rewrite B2; auto].
  intros El. destruct Hi as [Hi|[Hi|Hi]]; [rewrite Hi in El; injection El as El; lia|congruence|].
  unfold current in Hw. rewrite Hi, El in Hw. injection Hw as Hw. lia.
Qed.

(* ---- preselection ---- *)
Lemma pre_process c x p x' e : e_pre c = true -> process c x p = Ok (x', e) -> sets e = [].
Proof.
  intros Hd. unfold process. set (x0 := if x_pos x =? -1 then _ else x). destruct (check_watch c x0) as [[x1 e1]|] eqn:E1; [|discriminate].
  apply check_watch_frame in E1. destruct E1 as (_ & _ & Hs & _). rewrite Hd. cbn [negb].
  destruct (x_pos x1 =? scaled c p); [intros H; injection H as <- <-; auto|].
  destruct (get_value c x1) as [w|]; [|discriminate].
  set (x2 := match w with None => put_value c x1 0 | Some _ => x1 end). cbn [x_last x_pos]. destruct (x_last x2) as [b|]; [|discriminate]. destruct (opt_eqb _ _); [intros H; injection H as <- <-; auto|].
  intros H. injection H as <- <-. unfold sets in *. rewrite !flat_map_app, Hs. destruct (e_preview c); reflexivity.
Qed.

Lemma accept_idle c x x' e : e_pre c = true -> x_active x = false -> accept c x = Ok (x', e) -> sets e = [] /\ x' = x.
Proof. intros Hp Ha H. apply accept_spec in H. destruct H as [(A & -> & _)|(v & _ & _ & B & _)]; [auto|]. rewrite B in Ha; [discriminate|auto]. Qed.

Lemma noturn_active c x ops : forall y ev, e_pre c = true -> x_active x = false -> (forall o, In o ops -> is_turn o = false) -> erun c x ops = Ok (y, ev) -> x_active y = false /\ sets ev = [].
Proof.
  revert x. induction ops as [|o ops IH]; intros x y ev Hp Ha Hn H; cbn [erun] in H; [injection H as <- <-; auto|].
  destruct (estep c x o) as [[x1 e1]|] eqn:E1; [|discriminate]. destruct (erun c x1 ops) as [[x2 e2]|] eqn:E2; [|discriminate]. injection H as <- <-.
  assert (S1 : x_active x1 = false /\ sets e1 = []).
  { specialize (Hn o (or_introl eq_refl)). destruct o as [p| | |v|v]; cbn [estep is_turn] in *; [discriminate| | | |].
    - apply accept_idle in E1; auto. destruct E1 as [? ->]. auto.
    - apply cancel_frame in E1. tauto.
    - injection E1 as <- <-. auto.
    - injection E1 as <- <-. auto. }
  destruct S1 as [A1 B1]. apply IH in E2; auto; [|intros o' Ho; apply Hn; right; auto]. destruct E2 as [A2 B2]. split; auto. unfold sets in *. rewrite flat_map_app, B1, B2. reflexivity.
Qed.

(* ---- the state of a preselection ---- *)
Lemma pre_step c x p x' e : e_pre c = true -> process c x p = Ok (x', e) ->
  exists x1 e1, check_watch c (if x_pos x =? -1 then mkEnc (scaled c p) (x_last x) (x_active x) (x_seen x) (x_val x) (x_watch x) else x) = Ok (x1, e1) /\
    ((x_pos x1 = scaled c p /\ x' = x1) \/
     (x_pos x1 <> scaled c p /\ exists b, x_last x1 = Some b /\
        let v := clamp (e_min c) (e_max c) (b + (scaled c p - x_pos x1)) in
        x_last x' = Some v /\ x_active x' = (x_active x1 || negb (b =? v)) /\ (x_val x' = x_val x1 \/ x_val x1 = None))).
Proof.
  intros Hd. unfold process. set (x0 := if x_pos x =? -1 then _ else x). destruct (check_watch c x0) as [[x1 e1]|] eqn:E1; [|discriminate].
  rewrite Hd. cbn [negb]. intros H. exists x1, e1. split; auto.
  destruct (Z.eqb_spec (x_pos x1) (scaled c p)); [injection H as <- <-; auto|]. right. split; auto.
  destruct (get_value c x1) as [w|] eqn:Eg; [|discriminate]. cbn [x_last x_pos x_active] in H.
  set (x2 := match w with None => put_value c x1 0 | Some _ => x1 end) in *.
  assert (P2 : x_pos x2 = x_pos x1 /\ x_last x2 = x_last x1 /\ x_active x2 = x_active x1 /\ (x_val x2 = x_val x1 \/ x_val x1 = None)).
  { unfold x2. destruct w; auto. unfold get_value in Eg. destruct (e_bank c); [destruct (x_val x1); discriminate|injection Eg as Eg; auto]. }
  destruct P2 as (P1 & P2 & P3 & P4). rewrite P1, P2 in H. destruct (x_last x1) as [b|] eqn:El; [|discriminate]. exists b. split; auto. cbv zeta. set (v := clamp _ _ _) in *.
  cbn [opt_eqb] in H. destruct (Z.eqb_spec b v) as [Eb|Eb]; injection H as <- <-; cbn; rewrite ?P3, ?orb_false_r, ?orb_true_r, ?El; auto.
  rewrite Eb. auto.
Qed.

Definition pre_inv (c : econf) (x : enc) : Prop := x_active x = true -> exists v, x_last x = Some v /\ e_min c <= v <= e_max c.

Lemma pre_inv_reached c ops x : e_pre c = true -> e_min c <= e_max c -> reached c ops x -> pre_inv c x.
Proof.
  intros Hp Hm. revert x. induction ops as [|ops o IH] using rev_ind_snoc; intros x H.
  - destruct H as [ev H]. injection H as <- <-. intros E. discriminate.
  - apply reached_snoc in H. destruct H as (x0 & ev & H0 & H1). specialize (IH _ H0). destruct o as [p| | |v|v]; cbn [estep] in H1.
    + apply pre_step in H1; auto. destruct H1 as (x1 & e1 & Ew & Hx). apply check_watch_frame in Ew.
      assert (I1 : pre_inv c x1).
      { intros A. assert (Q : x_last x0 = x_last x1 /\ x_active x0 = true).
        { destruct Ew as (_ & _ & _ & Q & _). destruct (x_pos x0 =? -1); (destruct Q as [->|[[Q1 Q2]|[Q1 _]]]; [auto|rewrite Q1; rewrite Q2 in A; auto|congruence]). }
        destruct Q as [Q1 Q2]. rewrite <- Q1. auto. }
      destruct Hx as [[_ ->]|(_ & b & Hb & Hl & Ha & _)]; auto. intros _. rewrite Hl. eexists. split; [reflexivity|]. rewrite clamp_nearest by auto. unfold nearest. lia.
    + apply accept_spec in H1. destruct H1 as [(_ & -> & _)|(v & _ & _ & _ & _ & _ & _ & A & _)]; auto. intros A'. congruence.
    + apply cancel_frame in H1. intros A. destruct H1 as (_ & _ & B & _). congruence.
    + injection H1 as <- <-. exact IH.
    + injection H1 as <- <-. exact IH.
Qed.

Lemma accept_clears c x x' e : e_pre c = true -> 0 <= e_min c -> pre_inv c x -> accept c x = Ok (x', e) -> x_active x' = false.
Proof.
  intros Hp H0 Hi H. apply accept_spec in H. destruct H as [(_ & -> & [A|[_ A]])|(v & _ & _ & _ & _ & _ & _ & A & _)]; auto.
  destruct (x_active x) eqn:E; auto. destruct (Hi E) as (v & L & B). rewrite A in L. injection L as <-. lia.
Qed.

(* after accept or cancel, without a turn, accept sends nothing *)
Lemma pre_once c ops ops2 o x : e_pre c = true -> 0 <= e_min c -> e_min c <= e_max c -> (o = Accept \/ o = Cancel) -> (forall q, In q ops2 -> is_turn q = false) ->
  reached c (ops ++ o :: ops2) x -> forall x' e, accept c x = Ok (x', e) -> sets e = [].
Proof.
  intros Hp H0 Hm Ho Hn [ev H] x' e Ha. rewrite erun_app in H. destruct (erun c new_enc ops) as [[x0 e0]|] eqn:E0; [|discriminate]. cbn [erun] in H.
  destruct (estep c x0 o) as [[x1 e1]|] eqn:E1; [|discriminate]. destruct (erun c x1 ops2) as [[x2 e2]|] eqn:E2; [|discriminate]. injection H as <- _.
  assert (A1 : x_active x1 = false).
  { destruct Ho as [->| ->]; cbn [estep] in E1; [apply (accept_clears c x0 x1 e1); auto; apply (pre_inv_reached c ops); auto; exists e0; auto|apply cancel_frame in E1; tauto]. }
  apply noturn_active in E2; auto. destruct E2 as [A2 _]. apply accept_idle in Ha; tauto.
Qed.

(* nothing at all is sent but by accept *)
Lemma pre_silent c ops : forall x x' e, e_pre c = true -> (forall o, In o ops -> o <> Accept) -> erun c x ops = Ok (x', e) -> sets e = [].
Proof.
  induction ops as [|o ops IH]; intros x x' e Hp Hn H; cbn [erun] in H; [injection H as <- <-; auto|].
  destruct (estep c x o) as [[x1 e1]|] eqn:E1; [|discriminate]. destruct (erun c x1 ops) as [[x2 e2]|] eqn:E2; [|discriminate]. injection H as <- <-.
  unfold sets. rewrite flat_map_app. fold (sets e1). fold (sets e2).
  rewrite (IH x1 x2 e2); auto; [|intros o' Ho; apply Hn; right; auto]. rewrite app_nil_r.
  destruct o as [p| | |v|v]; cbn [estep] in E1.
  - eapply pre_process; eauto.
  - exfalso. apply (Hn Accept); [left|]; auto.
  - apply cancel_frame in E1. tauto.
  - injection E1 as <- <-. auto.
  - injection E1 as <- <-. auto.
Qed.

(* an accept sends at most the preselected value, within the limits *)
Lemma pre_accept_range c ops x x' e : e_pre c = true -> e_min c <= e_max c -> reached c ops x -> accept c x = Ok (x', e) ->
  sets e = [] \/ exists v, sets e = [v] /\ e_min c <= v <= e_max c /\ current c x' = Some v.
Proof.
  intros Hp Hm Hr H. pose proof (pre_inv_reached _ _ _ Hp Hm Hr) as Hi. apply accept_spec in H. destruct H as [(A & _)|(v & L & _ & A & S & G & _)]; [auto|].
  right. exists v. split; auto. destruct (Hi (A Hp)) as (v' & L' & B). rewrite L in L'. injection L' as <-. split; auto. unfold current. rewrite G. auto.
Qed.

(* a run of turns *)
Lemma pre_turns c : e_pre c = true -> e_watch c = false -> e_min c <= e_max c -> forall ps x p v x' e,
  x_pos x = scaled c p -> (forall q, In q (p :: ps) -> scaled c q <> -1) -> x_last x = Some v -> erun c x (map Turn ps) = Ok (x', e) ->
  x_last x' = Some (preselected c p v ps) /\ x_active x' = (x_active x || ever_moved c p v ps).
Proof.
  intros Hp Hw Hm. induction ps as [|q ps IH]; intros x p v x' e Hx Hn Hl H; cbn [map erun] in H.
  - injection H as <- <-. cbn. rewrite orb_false_r. auto.
  - cbn [estep] in H. destruct (process c x q) as [[y ey]|] eqn:Ep; [|discriminate]. destruct (erun c y (map Turn ps)) as [[z ez]|] eqn:Ez; [|discriminate]. injection H as <- <-.
    pose proof (process_pos _ _ _ _ _ Ep) as Hy. apply pre_step in Ep; auto. destruct Ep as (x1 & e1 & Ew & Hx1). apply check_watch_frame in Ew. destruct Ew as (_ & _ & _ & _ & _ & Ew). destruct (Ew Hw) as [E1 _].
    destruct (Z.eqb_spec (x_pos x) (-1)); [exfalso; apply (Hn p); [left; auto|congruence]|]. rewrite E1 in Hx1. rewrite Hx in Hx1.
    cbn [preselected ever_moved]. set (w := moved c p q v).
    assert (Y : x_last y = Some w /\ x_active y = (x_active x || negb (w =? v))).
    { unfold w, moved. destruct Hx1 as [[B1 ->]|(B0 & b & Hb & B1 & B2 & _)].
      - rewrite <- B1, Z.eqb_refl, Z.eqb_refl, orb_false_r. auto.
      - rewrite Hl in Hb. injection Hb as <-. rewrite B1, B2, clamp_nearest by auto. destruct (Z.eqb_spec (scaled c q) (scaled c p)); [congruence|]. rewrite (Z.eqb_sym v). auto. }
    destruct Y as [Y1 Y2]. apply (IH y q w) in Ez; auto; [|intros q' Hq; apply Hn; right; auto]. destruct Ez as [-> ->]. rewrite Y2, orb_assoc. auto.
Qed.

(* preselection from the device value: after cancel or accept, turns, accept *)
Lemma pre_accept_value c ops o x0 x1 e1 p v ps x2 e2 x3 e3 : e_pre c = true -> e_watch c = false -> 0 <= e_min c -> e_min c <= e_max c ->
  reached c ops x0 -> (o = Accept \/ o = Cancel) -> estep c x0 o = Ok (x1, e1) -> current c x1 = Some v -> x_val x1 <> None -> (o = Accept -> sets e1 <> []) ->
  last_turn ops = Some p -> (forall q, In q (p :: ps) -> scaled c q <> -1) ->
  erun c x1 (map Turn ps) = Ok (x2, e2) -> accept c x2 = Ok (x3, e3) -> 0 <= v ->
  sets e3 = (if ever_moved c p v ps then [preselected c p v ps] else []).
Proof.
  intros Hp Hw H0 Hm Hr Ho Hs Hv Hk Hacc Hl Hn Ht Ha Hv0.
  pose proof (reached_pos _ _ _ (reached_step _ _ _ _ _ _ Hr Hs)) as Hpos. rewrite last_turn_snoc in Hpos.
  assert (S : x_last x1 = Some v /\ x_active x1 = false).
  { unfold current in Hv. destruct Ho as [->| ->]; cbn [estep] in Hs.
    - apply accept_spec in Hs. destruct Hs as [(A & _)|(u & _ & _ & _ & _ & G & L & A & _)]; [exfalso; apply (Hacc eq_refl); auto|]. rewrite G in Hv. injection Hv as <-. auto.
    - apply cancel_frame in Hs. destruct Hs as (_ & Ev & A & G & _). unfold get_value in *. rewrite <- Ev in G. rewrite G in Hv. destruct (x_last x1) as [u|]; [injection Hv as <-; auto|].
      exfalso. apply Hk. destruct (e_bank c); [destruct (x_val x1); congruence|congruence]. }
  destruct S as [S1 S2].
  assert (Hx : x_pos x1 = scaled c p) by (destruct Ho as [->| ->]; rewrite Hl in Hpos; auto).
  destruct (pre_turns c Hp Hw Hm ps x1 p v x2 e2 Hx Hn S1 Ht) as [T1 T2]. rewrite S2 in T2. cbn [orb] in T2.
  apply accept_spec in Ha. destruct Ha as [(A & _ & [B|[_ B]])|(u & L & N & A & B & _)].
  - rewrite T1 in B. injection B as B. destruct (ever_moved c p v ps) eqn:E; auto. exfalso.
    assert (R : forall ps p v, 0 <= v -> 0 <= preselected c p v ps).
    { clear - H0 Hm. induction ps as [|q ps IH]; intros p v H; cbn; auto. apply IH. unfold moved, nearest. destruct (_ =? _); lia. }
    specialize (R ps p v Hv0). lia.
  - rewrite B in T2. rewrite <- T2. auto.
  - rewrite T1 in L. injection L as <-. rewrite (A Hp) in T2. rewrite <- T2. auto.
Qed.

Lemma button_spec regs : forall b0, let b := fold_left (fun b r => register_encoder b (fst r) (snd r)) regs b0 in
  b_encoders b = b_encoders b0 ++ map fst regs /\ b_cancel b = last (map snd regs) (b_cancel b0).
Proof.
  induction regs as [|regs [e m] IH] using rev_ind_snoc; intros b0; cbv zeta; [cbn; rewrite app_nil_r; auto|].
  rewrite fold_left_snoc. destruct (IH b0) as [I1 I2]. cbv zeta in I1, I2. rewrite !map_app. cbn. rewrite I1, last_last, app_assoc. auto.
Qed.
Lemma button_push_spec regs m : regs <> [] -> (forall r, In r regs -> snd r = m) ->
  button_push (fold_left (fun b r => register_encoder b (fst r) (snd r)) regs new_ebutton) = regs.
Proof.
  intros Hn Hm. destruct (button_spec regs new_ebutton) as [B1 B2]. unfold button_push. rewrite B1, B2. cbn [b_encoders new_ebutton app].
  assert (L : last (map snd regs) (b_cancel new_ebutton) = m).
  { clear - Hn Hm. induction regs as [|regs x IH] using rev_ind_snoc; [contradiction|]. rewrite map_app; cbn [map]; rewrite last_last. apply Hm. apply in_or_app; right; left; auto. }
  rewrite L, map_map. rewrite <- (map_id regs) at 2. apply map_ext_in. intros [e k] Hin. cbn. f_equal. symmetry. apply (Hm _ Hin).
Qed.

Lemma announced_app a b : announced (a ++ b) = announced a ++ announced b.
Proof. unfold announced. apply flat_map_app. Qed.
Lemma sets_app' a b : sets (a ++ b) = sets a ++ sets b.
Proof. unfold sets. apply flat_map_app. Qed.
Lemma bank_announced c x p x' e : e_pre c = false -> process c x p = Ok (x', e) -> announced e = if e_bank c then sets e else [].
Proof.
  intros HP H. unfold process in H. unfold check_watch in H. rewrite HP, andb_false_r in H. cbn [negb andb] in H.
  set (x0 := if x_pos x =? -1 then _ else x) in H. clearbody x0. destruct (x_pos x0 =? scaled c p); [injection H as <- <-; destruct (e_bank c); reflexivity|].
  destruct (get_value c x0) as [w|]; [|discriminate]. set (x2 := match w with Some _ => _ | None => _ end) in H. clearbody x2.
  destruct (get_value c _) as [[base|]|]; try discriminate.
  set (v := clamp _ _ _) in H. clearbody v. destruct (opt_eqb _ _); [injection H as <- <-; destruct (e_bank c); reflexivity|].
  match type of H with match accept c ?y with _ => _ end = _ => destruct (accept c y) as [[x5 e5]|] eqn:EA; [|discriminate] end. injection H as <- <-.
  cbn [app]. rewrite announced_app, sets_app'.
  assert (T1 : announced (if e_preview c then [EShow v] else []) = []) by (destruct (e_preview c); reflexivity).
  assert (T2 : sets (if e_preview c then [EShow v] else []) = []) by (destruct (e_preview c); reflexivity).
  rewrite T1, T2, !app_nil_r. clear T1 T2.
  unfold accept, base_accept in EA. cbn [x_last x_active] in EA. cbn [is_minus_one] in EA. rewrite HP in EA. cbn [andb] in EA.
  destruct (v =? -1) eqn:EV.
  - destruct (e_bank c); cbn in EA; [rewrite EV in EA|]; injection EA as <- <-; reflexivity.
  - unfold cancel, get_value, put_value in EA. destruct (e_bank c) eqn:EB; cbn in EA.
    + assert (EQ : Z.quot (v * rigs_per_bank) rigs_per_bank = v) by (apply Z.quot_mul; unfold rigs_per_bank; lia). rewrite EQ, EV in EA.
      injection EA as <- <-. destruct (e_preview c); reflexivity.
    + injection EA as <- <-. destruct (e_preview c); reflexivity.
Qed.
