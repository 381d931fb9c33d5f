From Verif.Lib Require Import Base.
From Verif.Model Require Import Codec Emulator.
From Verif.Spec Require Import Codec Emulator.
From Verif.Proofs Require Import Codec.

(* what one read does *)
Lemma read_exact q n :
  let '(ms, rest) := emu_read q n in
  Forall (fun m => (length m <= n)%nat) ms /\ ((q = ms /\ rest = []) \/ exists m, q = ms ++ m :: rest /\ (n < length m)%nat).
Proof.
  induction q as [|m q IH]; cbn [emu_read]; [split; [constructor|left; auto]|].
  cbn [Nat.add]. destruct (n <? length m)%nat eqn:E.
  - split; [constructor|]. right. exists m. split; [reflexivity|lia].
  - destruct (emu_read q n) as [ms rest]. destruct IH as [F [[-> ->]|(x & -> & L)]].
    + split; [constructor; [lia|assumption]|left; auto].
    + split; [constructor; [lia|assumption]|]. right. exists x. split; [reflexivity|assumption].
Qed.

Lemma next_first chans ms : next chans ms = first_accepted chans ms.
Proof. induction ms as [|m ms IH]; cbn; [reflexivity|]. rewrite IH. reflexivity. Qed.

Lemma part_refl {A} (l : list A) : part_of l l.
Proof. induction l; constructor; assumption. Qed.
Lemma part_app {A} (a a' b b' : list A) : part_of a a' -> part_of b b' -> part_of (a ++ b) (a' ++ b').
Proof. intros H. revert b b'. induction H; intros b b' Hb; cbn; [assumption|constructor; auto|constructor; auto]. Qed.
Lemma part_trans {A} (a b c : list A) : part_of b c -> part_of a b -> part_of a c.
Proof.
  intros H. revert a. induction H as [|x l l' H IH|x l l' H IH]; intros a Ha; [assumption| |constructor; auto].
  inv Ha; constructor; auto.
Qed.

Lemma concat_wire (ms : list wmsg) : concat (map wire ms) = wires ms.
Proof. unfold wires. symmetry. apply flat_map_concat_map. Qed.

Lemma receive_wires chans P X : Forall valid (P ++ X) ->
  receive chans (wires P) (wires X) = (wires (snd (next chans (P ++ X))), fst (next chans (P ++ X))).
Proof.
  intros F. rewrite next_first. rewrite <- (app_nil_r (wires P)) at 1.
  rewrite (receive_aligned chans P [] (wires X) (P ++ X) []); [rewrite app_nil_r; reflexivity|assumption|left; reflexivity|].
  cbn. rewrite wires_app, app_nil_r. reflexivity.
Qed.

Lemma read_wires Q : forall n, exists T R, emu_read (map wire Q) n = (map wire T, map wire R) /\ part_of (T ++ R) Q
  /\ Forall (fun m => (length (wire m) <= n)%nat) T /\ (Q = [] \/ (length R < length Q)%nat) /\ (length (T ++ R) <= length Q)%nat.
Proof.
  induction Q as [|m Q IH]; intros n; cbn [map emu_read].
  - exists [], []. repeat split; auto; constructor.
  - cbn [Nat.add]. destruct (n <? length (wire m))%nat eqn:E.
    + exists [], Q. repeat split; [constructor; apply part_refl|constructor|right; cbn; lia|cbn; lia].
    + destruct (IH n) as (T & R & -> & Hp & F & L & LL). exists (m :: T), R. repeat split; cbn.
      * constructor. assumption.
      * constructor; [lia|assumption].
      * right. rewrite app_length in LL. lia.
      * lia.
Qed.

(* The state: bytes of the pending messages in the buffer, whole messages in the queue *)
Definition good (arr : list wmsg) (e : emu) (T P Q : list wmsg) : Prop :=
  em_shown e = map wire T /\ em_buf e = wires P /\ em_queue e = map wire Q /\ part_of (T ++ Q) arr /\ Forall valid P /\ Forall valid Q.

Lemma part_forall {A} (Pr : A -> Prop) l l' : part_of l l' -> Forall Pr l' -> Forall Pr l.
Proof. induction 1; intros F; [constructor|inv F; constructor; auto|inv F; auto]. Qed.

Lemma receive_good size chans arr e T P Q got : Forall (fun m => (length (wire m) <= size)%nat) T ->
  good arr e T P Q -> filter (accepted chans) T = got ++ filter (accepted chans) P ->
  exists T' P' Q', good arr (fst (emu_receive size chans e)) T' P' Q'
  /\ filter (accepted chans) T' = (got ++ messages [snd (emu_receive size chans e)]) ++ filter (accepted chans) P'
  /\ Forall (fun m => (length (wire m) <= size)%nat) T'
  /\ ((0 < size)%nat -> (length P' + length Q' <= length P + length Q - 1)%nat) /\ (length P' + length Q' <= length P + length Q)%nat.
Proof.
  intros FT (E1 & E2 & E3 & Hp & FP & FQ) EF. unfold emu_receive. rewrite E2, E3.
  assert (X : exists X R, (if (length (wires P) <? size)%nat then emu_read (map wire Q) (size - length (wires P)) else ([], map wire Q)) = (map wire X, map wire R)
     /\ part_of (X ++ R) Q /\ Forall (fun m => (length (wire m) <= size)%nat) X
     /\ (length (X ++ R) <= length Q)%nat /\ ((0 < size)%nat -> P = [] -> Q = [] \/ (length R < length Q)%nat)).
  { destruct (length (wires P) <? size)%nat eqn:EL.
    - destruct (read_wires Q (size - length (wires P))) as (X & R & E & H1 & H2 & H3 & H4).
      exists X, R. split; [assumption|]. split; [assumption|]. split; [eapply Forall_impl; [|exact H2]; cbn; intros; lia|]. split; [assumption|]. intros _ _. exact H3.
    - exists [], Q. split; [reflexivity|]. split; [apply part_refl|]. split; [constructor|]. split; [cbn; lia|].
      intros Hs ->. change (length (wires [])) with 0%nat in EL. lia. }
  destruct X as (X & R & -> & Hxr & FX & LX & LZ). rewrite concat_wire.
  assert (FXR : Forall valid (X ++ R)) by (eapply part_forall; eassumption).
  apply Forall_app in FXR. destruct FXR as [VX VR].
  assert (VPX : Forall valid (P ++ X)) by (apply Forall_app; auto).
  rewrite receive_wires by assumption. cbn [fst snd].
  exists (T ++ X), (snd (next chans (P ++ X))), R.
  pose proof (first_accepted_short chans (P ++ X)) as SH. rewrite <- next_first in SH.
  split; [|split; [|split; [|split]]].
  - unfold good. cbn [em_shown em_buf em_queue]. rewrite E1, map_app. repeat split; auto.
    + rewrite <- app_assoc. eapply part_trans; [exact Hp|]. apply part_app; [apply part_refl|assumption].
    + rewrite next_first. apply first_accepted_valid. assumption.
  - rewrite filter_app, EF, <- !app_assoc. f_equal. rewrite <- filter_app, next_first. apply (first_accepted_filter chans (P ++ X)).
  - apply Forall_app. split; assumption.
  - intros Hs. rewrite !app_length in *. destruct P as [|p P]; [|cbn [length] in *; lia].
    destruct (LZ Hs eq_refl) as [->|L]; [cbn [length] in *; lia|]. cbn [length] in *. lia.
  - rewrite !app_length in *. lia.
Qed.

Lemma tick_good calls size chans arr : forall e T P Q got, Forall (fun m => (length (wire m) <= size)%nat) T ->
  good arr e T P Q -> filter (accepted chans) T = got ++ filter (accepted chans) P ->
  exists T' P' Q', good arr (fst (emu_tick calls size chans e)) T' P' Q'
  /\ filter (accepted chans) T' = (got ++ snd (emu_tick calls size chans e)) ++ filter (accepted chans) P'
  /\ Forall (fun m => (length (wire m) <= size)%nat) T'
  /\ (length P' + length Q' <= length P + length Q)%nat
  /\ ((0 < calls)%nat -> (0 < size)%nat -> (length P' + length Q' <= length P + length Q - 1)%nat).
Proof.
  induction calls as [|calls IH]; intros e T P Q got FT G EF; cbn [emu_tick].
  - exists T, P, Q. cbn [fst snd]. rewrite app_nil_r. repeat split; try (apply G); auto; lia.
  - destruct (receive_good size chans arr e T P Q got FT G EF) as (T1 & P1 & Q1 & G1 & EF1 & FT1 & L1 & L1').
    destruct (emu_receive size chans e) as [e1 [m|]] eqn:ER; cbn [fst snd] in *.
    + destruct (IH e1 T1 P1 Q1 _ FT1 G1 EF1) as (T2 & P2 & Q2 & G2 & EF2 & FT2 & L2 & _).
      destruct (emu_tick calls size chans e1) as [e2 ms]. cbn [fst snd] in *.
      exists T2, P2, Q2. split; [assumption|]. split; [rewrite EF2, <- !app_assoc; reflexivity|]. split; [assumption|].
      split; [lia|]. intros _ Hs. specialize (L1 Hs). lia.
    + exists T1, P1, Q1. split; [assumption|]. split; [exact EF1|]. split; [assumption|]. split; [assumption|]. intros _ Hs. auto.
Qed.

Lemma run_good limit size chans vs : Forall valid (arrived vs) ->
  exists T P Q, good (arrived vs) (emulator limit size chans vs) T P Q
  /\ filter (accepted chans) T = client_got limit size chans vs ++ filter (accepted chans) P
  /\ Forall (fun m => (length (wire m) <= size)%nat) T /\ (length P + length Q <= length (arrived vs))%nat.
Proof.
  unfold emulator, client_got. induction vs as [|vs v IH] using rev_ind_snoc; intros F.
  - exists [], [], []. cbn. repeat split; constructor.
  - assert (F' := F). unfold arrived in F'. rewrite flat_map_app in F'. apply Forall_app in F'. destruct F' as [F1 F2].
    destruct (IH F1) as (T & P & Q & G & EF & FT & L). clear IH. rewrite map_app. cbn [map]. rewrite run_snoc.
    destruct (run (emu_step (S limit) size chans) emu_new (map op_of vs)) as [e got]. cbn [fst snd] in *.
    assert (EA : arrived (vs ++ [v]) = arrived vs ++ arrived [v]) by (unfold arrived; rewrite flat_map_app; reflexivity).
    rewrite EA. destruct v as [m|]; cbn [op_of emu_step].
    + exists T, P, (Q ++ [m]). destruct G as (G1 & G2 & G3 & G4 & G5 & G6). cbn [fst snd]. rewrite app_nil_r.
      split; [|split; [assumption|split; [assumption|rewrite !app_length; cbn; lia]]].
      unfold good. cbn [em_shown em_buf em_queue]. rewrite G3, map_app. repeat split; auto.
      * rewrite app_assoc. apply part_app; [assumption|apply part_refl].
      * apply Forall_app. split; assumption.
    + destruct (tick_good (S limit) size chans (arrived vs) e T P Q got FT G EF) as (T' & P' & Q' & G' & EF' & FT' & L1 & _).
      cbn [arrived flat_map]. rewrite app_nil_r. destruct (emu_tick (S limit) size chans e) as [e1 ms]. cbn [fst snd] in *.
      exists T', P', Q'. repeat split; try (apply G'); auto. lia.
Qed.

Lemma ordered limit size chans vs : Forall valid (arrived vs) ->
  exists taken, part_of taken (arrived vs) /\ monitor_got limit size chans vs = map wire taken
  /\ Forall (fun m => (length (wire m) <= size)%nat) taken
  /\ beginning_of (client_got limit size chans vs) (filter (accepted chans) taken).
Proof.
  intros F. destruct (run_good limit size chans vs F) as (T & P & Q & (G1 & G2 & G3 & G4 & G5 & G6) & EF & FT & _).
  exists T. split.
  - eapply part_trans; [exact G4|]. rewrite <- (app_nil_r T) at 1. apply part_app; [apply part_refl|].
    clear. induction Q; constructor; assumption.
  - split; [exact G1|]. split; [assumption|]. eexists. exact EF.
Qed.

Lemma arrived_ticks vs n : arrived (vs ++ repeat Ticks n) = arrived vs.
Proof. unfold arrived. rewrite flat_map_app. replace (flat_map _ (repeat Ticks n)) with (@nil wmsg); [apply app_nil_r|]. induction n; cbn; auto. Qed.

Lemma ticks_drain limit size chans arr n : (0 < size)%nat -> forall e T P Q got, Forall (fun m => (length (wire m) <= size)%nat) T ->
  good arr e T P Q -> filter (accepted chans) T = got ++ filter (accepted chans) P -> (length P + length Q <= n)%nat ->
  exists T', em_shown (fst (run (emu_step (S limit) size chans) e (map op_of (repeat Ticks n)))) = map wire T' /\ part_of T' arr
  /\ filter (accepted chans) T' = got ++ snd (run (emu_step (S limit) size chans) e (map op_of (repeat Ticks n))).
Proof.
  intros Hs. induction n as [|n IH]; intros e T P Q got FT G EF L.
  - destruct P; [|cbn in L; lia]. destruct Q; [|cbn in L; lia]. cbn. exists T. destruct G as (G1 & _ & _ & G4 & _). rewrite app_nil_r in *.
    repeat split; auto.
  - cbn [repeat map op_of]. rewrite run_cons. cbn [emu_step].
    destruct (tick_good (S limit) size chans arr e T P Q got FT G EF) as (T' & P' & Q' & G' & EF' & FT' & _ & L').
    destruct (IH _ _ _ _ _ FT' G' EF') as (T2 & E1 & E2 & E3); [specialize (L' ltac:(lia) Hs); lia|].
    exists T2. cbn [fst snd]. split; [exact E1|]. split; [exact E2|]. rewrite E3, <- app_assoc. reflexivity.
Qed.

Lemma all_processed limit size chans vs n : (0 < size)%nat -> Forall valid (arrived vs) -> (length (arrived vs) <= n)%nat ->
  exists taken, part_of taken (arrived vs) /\ monitor_got limit size chans (vs ++ repeat Ticks n) = map wire taken
  /\ client_got limit size chans (vs ++ repeat Ticks n) = filter (accepted chans) taken.
Proof.
  intros Hs F L. destruct (run_good limit size chans vs F) as (T & P & Q & G & EF & FT & LL).
  destruct (ticks_drain limit size chans (arrived vs) n Hs _ _ _ _ _ FT G EF) as (T' & E1 & E2 & E3); [lia|].
  exists T'. unfold monitor_got, emulator, client_got in *. rewrite map_app, run_app.
  destruct (run (emu_step (S limit) size chans) emu_new (map op_of vs)) as [e got]. cbn [fst snd] in *.
  split; [assumption|]. split; [assumption|]. symmetry. exact E3.
Qed.

(* the ideal queue *)
Lemma tick_empty calls size chans : forall e P, em_buf e = wires P -> em_queue e = [] -> Forall valid P ->
  exists sh, emu_tick calls size chans e = (mkEmu (wires (snd (take calls chans P))) [] sh, fst (take calls chans P)).
Proof.
  induction calls as [|calls IH]; intros e P E1 E2 F; cbn [emu_tick take].
  - exists (em_shown e). destruct e. cbn in *. subst. reflexivity.
  - unfold emu_receive. rewrite E1, E2. cbn [emu_read].
    replace (if (length (wires P) <? size)%nat then ([], []) else ([], [])) with (@nil (list Z), @nil (list Z)) by (case_if; reflexivity).
    change (concat []) with (wires []). rewrite receive_wires by (rewrite app_nil_r; assumption). rewrite app_nil_r.
    destruct (next chans P) as [[m|] P'] eqn:EN; cbn [fst snd].
    + assert (FP' : Forall valid P').
      { pose proof (first_accepted_valid chans P F) as X. rewrite <- next_first, EN in X. exact X. }
      match goal with |- context [emu_tick calls size chans ?s] => destruct (IH s P' eq_refl eq_refl FP') as [sh ->] end.
      exists sh. destruct (take calls chans P') as [l r]. reflexivity.
    + eexists. reflexivity.
Qed.

Lemma read_all Q n : Forall (fun m => (length (wire m) <= n)%nat) Q -> emu_read (map wire Q) n = (map wire Q, []).
Proof.
  induction 1 as [|m Q L F IH]; cbn [map emu_read]; [reflexivity|]. cbn [Nat.add].
  replace (n <? length (wire m))%nat with false by lia. rewrite IH. reflexivity.
Qed.

Lemma tick_queue calls size chans e old new : em_buf e = wires old -> em_queue e = map wire new -> Forall valid (old ++ new) -> (0 < calls)%nat ->
  Forall (fun m => (length (wires old) + length (wire m) <= size)%nat) new ->
  exists sh, emu_tick calls size chans e = (mkEmu (wires (snd (take calls chans (old ++ new)))) [] sh, fst (take calls chans (old ++ new))).
Proof.
  intros E1 E2 F C FF. destruct new as [|m new].
  { rewrite app_nil_r in *. apply tick_empty; assumption. }
  destruct calls as [|calls]; [lia|]. cbn [emu_tick take]. unfold emu_receive. rewrite E1, E2.
  assert (L : (length (wires old) < size)%nat).
  { inversion FF as [|? ? L1 L2]; subst. apply Forall_app in F. destruct F as [_ F]. inversion F as [|? ? V1 V2]; subst. pose proof (wire_pos m V1). lia. }
  replace (length (wires old) <? size)%nat with true by lia.
  rewrite read_all by (eapply Forall_impl; [|exact FF]; cbn; intros; lia).
  rewrite concat_wire, receive_wires by assumption.
  destruct (next chans (old ++ m :: new)) as [[x|] P'] eqn:EN; cbn [fst snd].
  + assert (FP' : Forall valid P').
    { pose proof (first_accepted_valid chans _ F) as X. rewrite <- next_first, EN in X. exact X. }
    match goal with |- context [emu_tick calls size chans ?s] => destruct (tick_empty calls size chans s P' eq_refl eq_refl FP') as [sh ->] end.
    exists sh. destruct (take calls chans P') as [l r]. reflexivity.
  + eexists. reflexivity.
Qed.

Lemma take_valid calls chans : forall P, Forall valid P -> Forall valid (snd (take calls chans P)).
Proof.
  induction calls as [|calls IH]; intros P F; cbn [take]; [assumption|].
  pose proof (first_accepted_valid chans _ F) as X. rewrite <- next_first in X.
  destruct (next chans P) as [[m|] P']; cbn [snd] in *; [|assumption].
  specialize (IH P' X). destruct (take calls chans P'). exact IH.
Qed.

Lemma queue_run calls size chans : (0 < calls)%nat -> forall vs e old new, em_buf e = wires old -> em_queue e = map wire new ->
  Forall valid (old ++ new ++ arrived vs) -> fits calls size chans old new vs ->
  snd (run (emu_step calls size chans) e (map op_of vs)) = queue calls chans old new vs.
Proof.
  intros C. induction vs as [|v vs IH]; intros e old new E1 E2 F H; [reflexivity|].
  cbn [map]. rewrite run_cons. destruct v as [m|]; cbn [op_of emu_step fst snd].
  - cbn [fits queue] in *. apply IH.
    + assumption.
    + cbn [em_queue]. rewrite E2, map_app. reflexivity.
    + rewrite <- !app_assoc. cbn [app]. exact F.
    + assumption.
  - cbn [fits queue] in *. destruct H as [H1 H2].
    assert (F' : Forall valid (old ++ new)) by (rewrite app_assoc in F; apply Forall_app in F; apply F).
    destruct (tick_queue calls size chans e old new E1 E2 F' C H1) as [sh ->]. cbn [fst snd].
    pose proof (take_valid calls chans _ F') as TV. destruct (take calls chans (old ++ new)) as [l r]. cbn [fst snd] in *. f_equal.
    apply IH; try reflexivity; [|assumption].
    apply Forall_app. split; [assumption|]. cbn [app arrived flat_map] in *. rewrite app_assoc in F. apply Forall_app in F. apply F.
Qed.

Lemma as_queue limit size chans vs : Forall valid (arrived vs) -> fits (S limit) size chans [] [] vs ->
  client_got limit size chans vs = queue (S limit) chans [] [] vs.
Proof. intros F H. unfold client_got. apply queue_run; auto. lia. Qed.

(* groups *)
Lemma take_all calls chans : forall P, (length P <= calls)%nat -> take calls chans P = (filter (accepted chans) P, []).
Proof.
  induction calls as [|calls IH]; intros P L; cbn [take].
  - destruct P; [reflexivity|cbn in L; lia].
  - pose proof (first_accepted_filter chans P) as X. pose proof (first_accepted_short chans P) as Y. rewrite <- next_first in X, Y.
    rewrite X. destruct (next chans P) as [[m|] P'] eqn:EN; cbn [fst snd] in *.
    + rewrite IH by lia. reflexivity.
    + assert (P' = []) as ->; [|reflexivity]. clear -EN. revert EN. induction P as [|p P IH]; cbn; [congruence|].
      destruct (accepted chans p); [discriminate|exact IH].
Qed.

Lemma queue_arrives calls chans old : forall g new vs, queue calls chans old new (map Arrives g ++ vs) = queue calls chans old (new ++ g) vs.
Proof.
  induction g as [|m g IH]; intros new vs; cbn [map app queue]; [rewrite app_nil_r; reflexivity|]. rewrite IH, <- app_assoc. reflexivity.
Qed.
Lemma fits_arrives calls size chans old : forall g new vs, fits calls size chans old new (map Arrives g ++ vs) <-> fits calls size chans old (new ++ g) vs.
Proof.
  induction g as [|m g IH]; intros new vs; cbn [map app fits]; [rewrite app_nil_r; reflexivity|]. rewrite IH, <- app_assoc. reflexivity.
Qed.
Lemma groups_cons g gs : groups (g :: gs) = map Arrives g ++ Ticks :: groups gs.
Proof. unfold groups. cbn [flat_map]. rewrite <- app_assoc. reflexivity. Qed.
Lemma arrived_map g : arrived (map Arrives g) = g.
Proof. induction g as [|m g IH]; cbn; [reflexivity|]. f_equal. exact IH. Qed.
Lemma arrived_groups gs : arrived (groups gs) = concat gs.
Proof.
  induction gs as [|g gs IH]; [reflexivity|]. rewrite groups_cons. unfold arrived. rewrite flat_map_app. cbn [flat_map].
  fold (arrived (groups gs)). fold (arrived (map Arrives g)). rewrite arrived_map, IH. reflexivity.
Qed.
Lemma groups_queue calls size chans gs :
  Forall (fun g => (length g <= calls)%nat /\ Forall (fun m => (length (wire m) <= size)%nat) g) gs ->
  fits calls size chans [] [] (groups gs) /\ queue calls chans [] [] (groups gs) = filter (accepted chans) (concat gs).
Proof.
  induction 1 as [|g gs [L F] FF [IH1 IH2]]; [split; [exact I|reflexivity]|].
  rewrite groups_cons, fits_arrives, queue_arrives. cbn [fits queue app]. rewrite take_all by assumption. cbn [snd concat].
  split.
  - split; [|assumption]. exact F.
  - rewrite IH2, filter_app. reflexivity.
Qed.
Lemma groups_received limit size chans gs : Forall valid (concat gs) ->
  Forall (fun g => (length g <= S limit)%nat /\ Forall (fun m => (length (wire m) <= size)%nat) g) gs ->
  client_got limit size chans (groups gs) = filter (accepted chans) (concat gs).
Proof.
  intros V F. destruct (groups_queue (S limit) size chans gs F) as [H1 H2]. rewrite as_queue; [assumption|rewrite arrived_groups; assumption|assumption].
Qed.

(* what is lost remains lost *)
Lemma ticks_idle calls size chans n sh : (0 < calls)%nat ->
  snd (run (emu_step calls size chans) (mkEmu [] [] sh) (map op_of (repeat Ticks n))) = [].
Proof.
  intros C. destruct calls as [|calls]; [lia|].
  induction n as [|n IH]; [reflexivity|]. cbn [repeat map op_of]. rewrite run_cons. cbn [emu_step].
  assert (E : emu_tick (S calls) size chans (mkEmu [] [] sh) = (mkEmu [] [] sh, [])).
  { cbn [emu_tick]. unfold emu_receive. cbn [em_buf em_queue em_shown emu_read length].
    replace (if (0 <? size)%nat then ([], []) else ([], [])) with (@nil (list Z), @nil (list Z)) by (case_if; reflexivity).
    cbn. rewrite app_nil_r. reflexivity. }
  rewrite E. cbn [fst snd]. rewrite IH. reflexivity.
Qed.
