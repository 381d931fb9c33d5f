From Verif.Lib Require Import Base.
From Verif.Model Require Import Midi Codec.
From Verif.Spec Require Import Codec.

Lemma wires_app a b : wires (a ++ b) = wires a ++ wires b.
Proof. unfold wires. apply flat_map_app. Qed.
Lemma wires_cons m ms : wires (m :: ms) = wire m ++ wires ms.
Proof. reflexivity. Qed.

(* what is sent is the wire format *)
Lemma encode_wire m : valid m -> encode m = Ok (wire m).
Proof.
  destruct m; cbn; try tauto; unfold a_channel; intros [H _]; rewrite Z.mod_small by lia; reflexivity.
Qed.


Lemma skip_data_app ds l : Forall data ds -> skip_data (ds ++ l) = let '(n, r) := skip_data l in ((length ds + n)%nat, r).
Proof.
  induction 1 as [|d ds Hd _ IH]; cbn [app skip_data length]; [destruct (skip_data l); reflexivity|].
  unfold data in Hd. destruct (128 <=? d) eqn:E; [lia|]. rewrite IH. destruct (skip_data l). reflexivity.
Qed.
Lemma skip_data_spec l : exists ds r, l = ds ++ r /\ Forall data ds /\ skip_data l = (length ds, r)
  /\ match r with [] => True | b :: _ => 128 <= b end.
Proof.
  induction l as [|b l IH]; [exists [], []; repeat split; constructor|].
  cbn [skip_data]. destruct (128 <=? b) eqn:E.
  - exists [], (b :: l). repeat split; [constructor|lia].
  - destruct IH as (ds & r & -> & F & E1 & B). rewrite E1. exists (b :: ds), r. repeat split; try assumption.
    constructor; [unfold data; lia|assumption].
Qed.
Lemma find_status_app ds l : Forall data ds ->
  find_status (ds ++ l) = match find_status l with Some (n, x) => Some ((length ds + n)%nat, x) | None => None end.
Proof.
  induction 1 as [|d ds Hd _ IH]; cbn [app find_status length]; [destruct (find_status l) as [[? ?]|]; reflexivity|].
  unfold data in Hd. destruct (128 <=? d) eqn:E; [lia|]. rewrite IH. destruct (find_status l) as [[? ?]|]; reflexivity.
Qed.
Lemma find_status_spec l :
  match find_status l with
  | None => Forall data l
  | Some (n, x) => exists ds r, l = ds ++ x :: r /\ length ds = n /\ Forall data ds /\ 128 <= x
  end.
Proof.
  induction l as [|b l IH]; cbn [find_status]; [constructor|].
  destruct (128 <=? b) eqn:E.
  - exists [], l. repeat split; [constructor|lia].
  - destruct (find_status l) as [[n x]|].
    + destruct IH as (ds & r & -> & <- & F & B). exists (b :: ds), r. repeat split; try assumption.
      constructor; [unfold data; lia|assumption].
    + constructor; [unfold data; lia|assumption].
Qed.
Lemma seven_data l : Forall seven_bit l -> Forall data l.
Proof. apply Forall_impl. unfold seven_bit, data. lia. Qed.

(* A valid message at the front of the buffer *)
Lemma class_cc ch : 0 <= ch <= 15 -> is_sysex (176 + ch) = false /\ is_cc (176 + ch) = true.
Proof. intros. unfold is_sysex, is_cc. lia. Qed.
Lemma class_pc ch : 0 <= ch <= 15 -> is_sysex (192 + ch) = false /\ is_cc (192 + ch) = false /\ is_pc (192 + ch) = true.
Proof. intros. unfold is_sysex, is_cc, is_pc. lia. Qed.

Lemma sysex_roundtrip man ds : valid (WSysEx man ds) -> sysex_from_bytes (240 :: man ++ ds ++ [247]) = WSysEx man ds.
Proof.
  intros ([(x & -> & Hx)|(x & y & ->)] & F1 & F2); unfold sysex_from_bytes.
  - cbn [app nth]. replace (x =? 0) with false by lia. cbn [negb].
    unfold slice. cbn [skipn length]. rewrite app_length. cbn [length].
    replace (S (S (length ds + 1)) - 1 - 2)%nat with (length ds) by lia.
    rewrite firstn_app, Nat.sub_diag, firstn_all, app_nil_r. reflexivity.
  - cbn [app nth]. cbn [negb Z.eqb].
    unfold slice. cbn [skipn length]. rewrite app_length. cbn [length].
    replace (S (S (S (S (length ds + 1)))) - 1 - 4)%nat with (length ds) by lia.
    rewrite firstn_app, Nat.sub_diag, firstn_all, app_nil_r. reflexivity.
Qed.

Lemma loop_msg fuel chans m l p e : valid m ->
  decode_loop (S fuel) chans (wire m ++ l) p e
  = if accepted chans m then (Some m, (p + length (wire m))%nat)
    else decode_loop fuel chans l (p + length (wire m)) (p + length (wire m)).
Proof.
  intros V. destruct m as [ch c v|ch pt|man ds|st|bs]; cbn [valid] in V; try contradiction.
  - destruct V as ((? & ?) & (? & ?) & (? & ?)). cbn [wire app].
    change 0xB0 with 176. destruct (class_cc ch) as [K1 K2]; [lia|].
    cbn [decode_loop skip_data]. replace (128 <=? 176 + ch) with true by lia.
    rewrite K1, K2. unfold cc_from_bytes.
    replace ((0 <=? c) && (c <=? 127) && (0 <=? v) && (v <=? 127)) with true by lia.
    replace ((176 + ch) mod 16) with ch by lia. rewrite Nat.add_0_r. reflexivity.
  - destruct V as ((? & ?) & (? & ?)). cbn [wire app].
    change 0xC0 with 192. destruct (class_pc ch) as (K1 & K2 & K3); [lia|].
    cbn [decode_loop skip_data]. replace (128 <=? 192 + ch) with true by lia.
    rewrite K1, K2, K3. unfold pc_from_bytes.
    replace ((0 <=? pt) && (pt <=? 127)) with true by lia.
    replace ((192 + ch) mod 16) with ch by lia. rewrite Nat.add_0_r. reflexivity.
  - pose proof V as V0. destruct V as (_ & F1 & F2). cbn [wire accepted].
    cbn [app decode_loop skip_data]. cbn [Z.leb]. change (128 <=? 240) with true. cbn iota. change (is_sysex 240) with true. cbn iota.
    replace ((man ++ ds ++ [247]) ++ l) with ((man ++ ds) ++ 247 :: l) by (rewrite <- !app_assoc; reflexivity).
    rewrite find_status_app by (apply Forall_app; split; apply seven_data; assumption).
    cbn [find_status]. change (128 <=? 247) with true. cbn iota. change (247 =? 247) with true. cbn iota.
    rewrite !Nat.add_0_r. f_equal; [f_equal|].
    + rewrite <- (sysex_roundtrip man ds V0). f_equal.
      replace (length (man ++ ds) + 2)%nat with (length (240 :: (man ++ ds) ++ [247])) by (cbn; rewrite app_length; cbn; lia).
      replace (240 :: (man ++ ds) ++ 247 :: l) with ((240 :: (man ++ ds) ++ [247]) ++ l)
        by (cbn; rewrite <- !app_assoc; reflexivity).
      rewrite firstn_app, Nat.sub_diag, firstn_all, app_nil_r. rewrite <- app_assoc. reflexivity.
    + cbn. rewrite !app_length. cbn. lia.
Qed.

(* the first accepted message and what follows it *)
Fixpoint first_accepted (chans : list Z) (ms : list wmsg) : option wmsg * list wmsg :=
  match ms with
  | [] => (None, [])
  | m :: ms' => if accepted chans m then (Some m, ms') else first_accepted chans ms'
  end.

Definition tail_ok (t : list Z) : Prop := t = [] \/ incomplete_tail t.

Lemma loop_tail fuel chans t p : tail_ok t -> decode_loop (S fuel) chans t p p = (None, p).
Proof.
  intros [->|[(st & -> & H)|(st & c & -> & H)]]; cbn [decode_loop skip_data]; [rewrite Nat.add_0_r; reflexivity| |].
  - replace (128 <=? st) with true by lia. unfold is_sysex. replace (st =? 240) with false by lia.
    destruct (is_cc st) eqn:E1; [reflexivity|]. destruct (is_pc st) eqn:E2; [reflexivity|]. unfold is_cc, is_pc in *. lia.
  - replace (128 <=? st) with true by lia. unfold is_sysex. replace (st =? 240) with false by lia.
    replace (is_cc st) with true; [reflexivity|]. unfold is_cc. lia.
Qed.

Lemma loop_aligned chans ms : forall fuel t p, Forall valid ms -> tail_ok t -> (length ms < fuel)%nat ->
  exists e, decode_loop fuel chans (wires ms ++ t) p p = (fst (first_accepted chans ms), (p + e)%nat)
  /\ skipn e (wires ms ++ t) = wires (snd (first_accepted chans ms)) ++ t.
Proof.
  induction ms as [|m ms IH]; intros fuel t p F T L.
  - destruct fuel as [|fuel]; [cbn in L; lia|]. exists 0%nat. cbn [wires flat_map app first_accepted fst snd skipn].
    rewrite loop_tail by assumption. rewrite Nat.add_0_r. split; reflexivity.
  - destruct fuel as [|fuel]; [cbn in L; lia|]. inversion F as [|? ? V F']; subst. rewrite wires_cons, <- app_assoc.
    rewrite loop_msg by assumption. cbn [first_accepted]. destruct (accepted chans m).
    + exists (length (wire m)). cbn [fst snd]. split; [reflexivity|].
      rewrite skipn_app, Nat.sub_diag, skipn_all. reflexivity.
    + destruct (IH fuel t (p + length (wire m))%nat F' T) as (e & E1 & E2); [cbn in L; lia|].
      exists (length (wire m) + e)%nat. rewrite E1. split; [rewrite Nat.add_assoc; reflexivity|].
      rewrite skipn_app. rewrite skipn_all2 by lia. cbn [app].
      replace (length (wire m) + e - length (wire m))%nat with e by lia. exact E2.
Qed.

Lemma wire_pos m : valid m -> (0 < length (wire m))%nat.
Proof. destruct m; cbn; try tauto; lia. Qed.
Lemma wires_long ms : Forall valid ms -> (length ms <= length (wires ms))%nat.
Proof.
  induction 1 as [|m ms V F IH]; [cbn; lia|]. rewrite wires_cons, app_length. pose proof (wire_pos m V). cbn. lia.
Qed.

Lemma receive_aligned chans ms t c ms' t' : Forall valid ms' -> tail_ok t' -> wires ms ++ t ++ c = wires ms' ++ t' ->
  receive chans (wires ms ++ t) c = (wires (snd (first_accepted chans ms')) ++ t', fst (first_accepted chans ms')).
Proof.
  intros F T E. unfold receive, decode. rewrite <- app_assoc, E.
  destruct (loop_aligned chans ms' (S (length (wires ms' ++ t'))) t' 0%nat F T) as (e & E1 & E2).
  { rewrite app_length. pose proof (wires_long ms' F). lia. }
  rewrite E1. cbn [fst snd]. rewrite Nat.add_0_l.
  destruct (e =? 0)%nat eqn:E0; cbn [negb]; [|rewrite E2; reflexivity].
  apply Nat.eqb_eq in E0. subst e. cbn [skipn] in E2. rewrite <- E2. reflexivity.
Qed.

(* locating a position of the stream *)
Fixpoint locate (ms : list wmsg) (k : nat) : list wmsg * list Z :=
  match ms with
  | [] => ([], [])
  | m :: ms' => if (length (wire m) <=? k)%nat then let '(P, t) := locate ms' (k - length (wire m)) in (m :: P, t)
                else ([], firstn k (wire m))
  end.
Lemma locate_bytes ms : forall k, wires (fst (locate ms k)) ++ snd (locate ms k) = firstn k (wires ms).
Proof.
  induction ms as [|m ms IH]; intros k; cbn [locate]; [destruct k; reflexivity|].
  destruct (length (wire m) <=? k)%nat eqn:E.
  - destruct (locate ms (k - length (wire m))) as [P t] eqn:E1. cbn [fst snd]. rewrite !wires_cons, <- app_assoc.
    specialize (IH (k - length (wire m))%nat). rewrite E1 in IH. cbn [fst snd] in IH. rewrite IH.
    rewrite firstn_app. rewrite (firstn_all2 (wire m)) by lia. reflexivity.
  - cbn [fst snd]. rewrite wires_cons, firstn_app. replace (k - length (wire m))%nat with 0%nat by lia. cbn [firstn].
    rewrite app_nil_r. reflexivity.
Qed.
Lemma locate_mono ms : forall k k', (k <= k')%nat -> exists E, fst (locate ms k') = fst (locate ms k) ++ E.
Proof.
  induction ms as [|m ms IH]; intros k k' L; cbn [locate]; [exists []; reflexivity|].
  destruct (length (wire m) <=? k)%nat eqn:E.
  - replace (length (wire m) <=? k')%nat with true by lia.
    destruct (IH (k - length (wire m))%nat (k' - length (wire m))%nat) as [X H]; [lia|].
    destruct (locate ms (k - length (wire m))), (locate ms (k' - length (wire m))). cbn [fst] in *. exists X. rewrite H. reflexivity.
  - eexists. cbn [fst app]. reflexivity.
Qed.
Lemma locate_valid ms k : Forall valid ms -> Forall valid (fst (locate ms k)).
Proof.
  intros F. revert k. induction F as [|m ms V F IH]; intros k; cbn [locate]; [constructor|].
  destruct (length (wire m) <=? k)%nat; [|constructor]. specialize (IH (k - length (wire m))%nat).
  destruct (locate ms (k - length (wire m))). cbn [fst] in *. constructor; assumption.
Qed.
Lemma locate_all ms k : (length (wires ms) <= k)%nat -> locate ms k = (ms, []).
Proof.
  revert k. induction ms as [|m ms IH]; intros k L; cbn [locate]; [reflexivity|]. rewrite wires_cons, app_length in L.
  replace (length (wire m) <=? k)%nat with true by lia. rewrite IH by lia. reflexivity.
Qed.
Lemma outside_cons m ms k : outside_sysex (m :: ms) k -> outside_sysex ms (k - length (wire m)).
Proof.
  intros O ms1 man ds ms2 ->. specialize (O (m :: ms1) man ds ms2 eq_refl).
  change ((m :: ms1) ++ [WSysEx man ds]) with (m :: (ms1 ++ [WSysEx man ds])) in O.
  rewrite !wires_cons, !app_length in O. lia.
Qed.
Lemma locate_tail ms k : Forall valid ms -> outside_sysex ms k -> tail_ok (snd (locate ms k)).
Proof.
  intros F. revert k. induction F as [|m ms V F IH]; intros k O; cbn [locate]; [left; reflexivity|].
  destruct (length (wire m) <=? k)%nat eqn:E.
  - specialize (IH _ (outside_cons m ms k O)). destruct (locate ms (k - length (wire m))). exact IH.
  - cbn [snd]. destruct k as [|k]; [left; reflexivity|]. destruct m as [ch c v|ch p|man ds|st|bs]; cbn [valid] in V; try contradiction.
    + destruct V as ((? & ?) & _). cbn in E. right. destruct k as [|[|k]]; [left|right|cbn in E; lia]; cbn.
      * eexists. split; [reflexivity|]. lia.
      * do 2 eexists. split; [reflexivity|]. lia.
    + destruct V as ((? & ?) & _). cbn in E. right. destruct k as [|k]; [left|cbn in E; lia]; cbn.
      eexists. split; [reflexivity|]. lia.
    + exfalso. specialize (O [] man ds ms eq_refl). cbn [wires flat_map length] in O.
      destruct O as [O|O]; [lia|]. cbn [app] in O. rewrite wires_cons, app_length in O. cbn [wires flat_map length] in O. lia.
Qed.

Lemma first_accepted_filter chans ms :
  filter (accepted chans) ms
  = messages [fst (first_accepted chans ms)] ++ filter (accepted chans) (snd (first_accepted chans ms)).
Proof.
  induction ms as [|m ms IH]; cbn [filter first_accepted]; [reflexivity|].
  destruct (accepted chans m); [reflexivity|]. exact IH.
Qed.
Lemma first_accepted_short chans ms : (length (snd (first_accepted chans ms)) <= length ms - 1)%nat.
Proof.
  induction ms as [|m ms IH]; cbn [first_accepted]; [cbn; lia|].
  destruct (accepted chans m); cbn [snd length]; lia.
Qed.
Lemma first_accepted_valid chans ms : Forall valid ms -> Forall valid (snd (first_accepted chans ms)).
Proof.
  induction 1 as [|m ms V F IH]; cbn [first_accepted]; [constructor|]. destruct (accepted chans m); assumption.
Qed.
Lemma messages_app a b : messages (a ++ b) = messages a ++ messages b.
Proof. induction a as [|[m|] a IH]; cbn; [reflexivity|rewrite IH; reflexivity|assumption]. Qed.

Lemma receive_all_app chans c1 : forall buf c2,
  receive_all chans buf (c1 ++ c2)
  = let '(b, r) := receive_all chans buf c1 in let '(b2, r2) := receive_all chans b c2 in (b2, r ++ r2).
Proof.
  induction c1 as [|c c1 IH]; intros buf c2; cbn [app receive_all]; [destruct (receive_all chans buf c2); reflexivity|].
  destruct (receive chans buf c) as [b m]. rewrite IH. destruct (receive_all chans b c1) as [b1 r1].
  destruct (receive_all chans b1 c2). reflexivity.
Qed.

(* The main invariant: after any reads ending outside System Exclusive messages, nothing is lost *)
Lemma run_aligned chans ms chunks : Forall valid ms ->
  (exists later, concat chunks ++ later = wires ms) ->
  (forall pre post, chunks = pre ++ post -> outside_sysex ms (length (concat pre))) ->
  exists P, fst (receive_all chans [] chunks) = wires P ++ snd (locate ms (length (concat chunks)))
  /\ filter (accepted chans) (fst (locate ms (length (concat chunks)))) = messages (snd (receive_all chans [] chunks)) ++ filter (accepted chans) P
  /\ Forall valid P /\ (length P <= length (fst (locate ms (length (concat chunks)))))%nat.
Proof.
  intros F. induction chunks as [|chunks c IH] using rev_ind_snoc; intros [later E] O.
  - exists []. cbn. assert (locate ms 0 = ([], [])) as ->.
    { destruct ms as [|m ms]; [reflexivity|]. inversion F; subst. cbn [locate]. pose proof (wire_pos m H1).
      replace (length (wire m) <=? 0)%nat with false by lia. reflexivity. }
    repeat split; constructor.
  - destruct IH as (P & E1 & E2 & FP & LP).
    { exists (c ++ later). rewrite concat_app in E. cbn in E. rewrite app_nil_r, <- app_assoc in E. exact E. }
    { intros pre post ->. apply (O pre (post ++ [c])). rewrite app_assoc. reflexivity. }
    set (k := length (concat chunks)) in *. set (k' := length (concat (chunks ++ [c]))).
    assert (Ek : k' = (k + length c)%nat).
    { unfold k', k. rewrite concat_app, app_length. cbn. rewrite app_nil_r. reflexivity. }
    destruct (locate_mono ms k k') as [X EX]; [lia|].
    assert (B1 := locate_bytes ms k). assert (B2 := locate_bytes ms k').
    assert (T2 : tail_ok (snd (locate ms k'))).
    { apply locate_tail; [assumption|]. apply (O (chunks ++ [c]) []). rewrite app_nil_r. reflexivity. }
    assert (Hc : firstn k' (wires ms) = firstn k (wires ms) ++ c).
    { rewrite concat_app in E. cbn in E. rewrite app_nil_r, <- app_assoc in E. rewrite <- E.
      rewrite !firstn_app. rewrite (firstn_all2 (concat chunks)) by (fold k; lia).
      rewrite (firstn_all2 (concat chunks)) by (fold k; lia). fold k. rewrite Nat.sub_diag. cbn [firstn]. rewrite app_nil_r.
      f_equal. replace (k' - k)%nat with (length c) by lia. rewrite Nat.sub_diag, firstn_all. cbn [firstn]. apply app_nil_r. }
    rewrite Hc, <- B1, EX, wires_app, <- !app_assoc in B2. apply app_inv_head in B2.
    assert (EE : wires P ++ snd (locate ms k) ++ c = wires (P ++ X) ++ snd (locate ms k')).
    { rewrite wires_app, <- app_assoc. f_equal. symmetry. exact B2. }
    rewrite receive_all_app. destruct (receive_all chans [] chunks) as [b r] eqn:ER. cbn [fst snd] in *. subst b.
    cbn [receive_all].
    assert (FX : Forall valid (P ++ X)).
    { apply Forall_app. split; [assumption|]. pose proof (locate_valid ms k' F) as FV. rewrite EX in FV.
      apply Forall_app in FV. apply FV. }
    rewrite (receive_aligned chans P (snd (locate ms k)) c (P ++ X) (snd (locate ms k')) FX T2 EE).
    cbn [fst snd]. exists (snd (first_accepted chans (P ++ X))). split; [reflexivity|]. split.
    + rewrite EX, filter_app, E2, <- app_assoc, <- filter_app, first_accepted_filter, messages_app, app_assoc. reflexivity.
    + split; [apply first_accepted_valid; assumption|]. pose proof (first_accepted_short chans (P ++ X)) as S1.
      rewrite EX. rewrite !app_length in *. lia.
Qed.

Lemma drain chans n : forall P, Forall valid P -> (length P <= n)%nat ->
  receive_all chans (wires P) (repeat [] n) = ([], snd (receive_all chans (wires P) (repeat [] n)))
  /\ messages (snd (receive_all chans (wires P) (repeat [] n))) = filter (accepted chans) P.
Proof.
  induction n as [|n IH]; intros P F L.
  - destruct P; [|cbn in L; lia]. split; reflexivity.
  - cbn [repeat receive_all]. rewrite <- (app_nil_r (wires P)).
    rewrite (receive_aligned chans P [] [] P []) by (try assumption; try (left; reflexivity); reflexivity).
    rewrite app_nil_r.
    destruct (IH (snd (first_accepted chans P))) as [E1 E2].
    { apply first_accepted_valid. assumption. }
    { pose proof (first_accepted_short chans P). lia. }
    rewrite (first_accepted_filter chans P).
    destruct (receive_all chans (wires (snd (first_accepted chans P))) (repeat [] n)) as [b r]. cbn [fst snd] in *.
    injection E1 as ->. split; [reflexivity|]. change (fst (first_accepted chans P) :: r) with ([fst (first_accepted chans P)] ++ r).
    rewrite messages_app, E2. reflexivity.
Qed.

Lemma received_all chans ms chunks n : Forall valid ms -> concat chunks = wires ms ->
  (forall pre post, chunks = pre ++ post -> outside_sysex ms (length (concat pre))) ->
  (length ms <= n)%nat ->
  received chans (chunks ++ repeat [] n) = filter (accepted chans) ms.
Proof.
  intros F E O L. destruct (run_aligned chans ms chunks F) as (P & E1 & E2 & FP & LP); [exists []; rewrite app_nil_r; assumption|assumption|].
  assert (EL : locate ms (length (concat chunks)) = (ms, [])) by (rewrite E; apply locate_all; lia). rewrite EL in *. cbn [fst snd] in *.
  rewrite app_nil_r in E1. unfold received. rewrite receive_all_app.
  destruct (receive_all chans [] chunks) as [b r] eqn:ER. cbn [fst snd] in *. subst b.
  destruct (drain chans n P FP) as [_ D]; [lia|].
  destruct (receive_all chans (wires P) (repeat [] n)) as [b2 r2]. cbn [fst snd] in *.
  rewrite messages_app, D, <- E2. reflexivity.
Qed.

(* never out of order, never doubled, nothing invented, at any moment *)
Lemma received_prefix chans ms chunks : Forall valid ms -> (exists later, concat chunks ++ later = wires ms) ->
  (forall pre post, chunks = pre ++ post -> outside_sysex ms (length (concat pre))) ->
  exists rest, filter (accepted chans) ms = received chans chunks ++ rest.
Proof.
  intros F E O. destruct (run_aligned chans ms chunks F E O) as (P & E1 & E2 & FP & LP).
  destruct (locate_mono ms (length (concat chunks)) (length (concat chunks) + length (wires ms))) as [X EX]; [lia|].
  rewrite locate_all in EX by lia. cbn [fst] in EX. exists (filter (accepted chans) P ++ filter (accepted chans) X).
  rewrite EX, filter_app, E2, <- app_assoc. reflexivity.
Qed.

Lemma outside_boundary a b : outside_sysex (a ++ b) (length (wires a)).
Proof.
  intros ms1 man ds ms2 E. revert ms1 E. induction a as [|x a IH]; intros ms1 E; [left; cbn; lia|].
  destruct ms1 as [|y ms1].
  - cbn in E. injection E as -> _. right. cbn [app]. rewrite !wires_cons, !app_length. cbn [wires flat_map length]. lia.
  - cbn in E. injection E as -> E. specialize (IH ms1 E).
    change ((y :: ms1) ++ [WSysEx man ds]) with (y :: (ms1 ++ [WSysEx man ds])). rewrite !wires_cons, !app_length. lia.
Qed.
Lemma outside_none ms k : existsb is_sysex_msg ms = false -> outside_sysex ms k.
Proof.
  intros E ms1 man ds ms2 ->. rewrite existsb_app in E. cbn in E. rewrite orb_true_r in E. discriminate.
Qed.
Lemma concat_wires gs : concat (map wires gs) = wires (concat gs).
Proof. induction gs as [|g gs IH]; [reflexivity|]. cbn [map concat]. rewrite wires_app, IH. reflexivity. Qed.

Lemma received_groups chans gs n : Forall valid (concat gs) -> (length (concat gs) <= n)%nat ->
  received chans (map wires gs ++ repeat [] n) = filter (accepted chans) (concat gs).
Proof.
  intros F L. apply received_all; try assumption; [apply concat_wires|].
  intros pre post E. destruct (map_eq_app _ _ _ _ E) as (g1 & g2 & -> & <- & <-).
  rewrite concat_wires, concat_app. apply outside_boundary.
Qed.

(* buffer bounds *)
Lemma loop_bounds fuel : forall chans bs p e m e', decode_loop fuel chans bs p e = (m, e') -> (e <= p)%nat -> (length bs < fuel)%nat ->
  (e' <= p + length bs)%nat /\ (m <> None -> p < e')%nat /\ (m = None -> e <= e')%nat.
Proof.
  induction fuel as [|fuel IH]; intros chans bs p e m e' D Le Lf; [lia|].
  cbn [decode_loop] in D. destruct (skip_data_spec bs) as (ds & r & -> & Fd & Es & Br). rewrite Es in D. rewrite app_length in *.
  destruct r as [|st rest]; [injection D as <- <-; cbn in *; split; [lia|split; [congruence|lia]]|].
  cbn [length] in *. destruct (is_sysex st).
  { pose proof (find_status_spec rest) as FS. destruct (find_status rest) as [[i x]|].
    - destruct FS as (ds2 & r2 & -> & <- & _ & _). rewrite app_length in *. cbn [length] in *.
      destruct (x =? 247); injection D as <- <-; (split; [lia|split; [try congruence; lia|try congruence; lia]]).
    - injection D as <- <-. split; [lia|split; [congruence|lia]]. }
  destruct (is_cc st).
  { destruct rest as [|c [|v rest]]; try (injection D as <- <-; split; [lia|split; [congruence|lia]]).
    cbn [length] in *. destruct (cc_from_bytes st c v).
    - destruct (channel_ok chans (st mod 16)).
      + injection D as <- <-. split; [lia|split; [lia|congruence]].
      + apply IH in D; [|lia|lia]. destruct D as (D1 & D2 & D3). split; [lia|split; [intros N; specialize (D2 N); lia|intros N; specialize (D3 N); lia]].
    - injection D as <- <-. split; [lia|split; [lia|congruence]]. }
  destruct (is_pc st).
  { destruct rest as [|v rest]; try (injection D as <- <-; split; [lia|split; [congruence|lia]]).
    cbn [length] in *. destruct (pc_from_bytes st v).
    - destruct (channel_ok chans (st mod 16)).
      + injection D as <- <-. split; [lia|split; [lia|congruence]].
      + apply IH in D; [|lia|lia]. destruct D as (D1 & D2 & D3). split; [lia|split; [intros N; specialize (D2 N); lia|intros N; specialize (D3 N); lia]].
    - injection D as <- <-. split; [lia|split; [lia|congruence]]. }
  injection D as <- <-. split; [lia|split; [lia|congruence]].
Qed.

(* the fuel is never exhausted: more fuel gives the same result *)
Lemma decode_fuel fuel : forall fuel' chans bs p e, (length bs < fuel)%nat -> (fuel <= fuel')%nat ->
  decode_loop fuel chans bs p e = decode_loop fuel' chans bs p e.
Proof.
  induction fuel as [|fuel IH]; intros fuel' chans bs p e L1 L2; [lia|]. destruct fuel' as [|fuel']; [lia|].
  cbn [decode_loop]. destruct (skip_data_spec bs) as (ds & r & -> & _ & Es & _). rewrite Es. rewrite app_length in L1.
  destruct r as [|st rest]; [reflexivity|]. cbn [length] in L1. destruct (is_sysex st); [reflexivity|].
  destruct (is_cc st).
  { destruct rest as [|c [|v rest]]; try reflexivity. cbn [length] in L1. destruct (cc_from_bytes st c v); [|reflexivity].
    destruct (channel_ok chans (st mod 16)); [reflexivity|]. apply IH; lia. }
  destruct (is_pc st); [|reflexivity].
  destruct rest as [|c rest]; try reflexivity. cbn [length] in L1. destruct (pc_from_bytes st c); [|reflexivity].
  destruct (channel_ok chans (st mod 16)); [reflexivity|]. apply IH; lia.
Qed.

Lemma is_cc_range st : is_cc st = true -> 0xB0 <= st <= 0xBF.
Proof. unfold is_cc. lia. Qed.
Lemma is_pc_range st : is_pc st = true -> 0xC0 <= st <= 0xCF.
Proof. unfold is_pc. lia. Qed.
Lemma sysex_image body : Forall data body -> appears_as (240 :: body ++ [247]) (sysex_from_bytes (240 :: body ++ [247])).
Proof.
  intros F. unfold sysex_from_bytes.
  destruct body as [|a [|b [|c body]]].
  - change (nth 1 (240 :: [] ++ [247]) 0 =? 0) with false. cbn. exists []. split; [reflexivity|]. split; [constructor|]. right. repeat split; cbn; lia.
  - cbn. destruct (a =? 0) eqn:E; cbn.
    + exists [a]. split; [reflexivity|]. split; [assumption|]. right. repeat split; cbn; lia.
    + exists [a]. split; [reflexivity|]. split; [assumption|]. left. split; [reflexivity|]. cbn; lia.
  - cbn. destruct (a =? 0) eqn:E; cbn.
    + exists [a; b]. split; [reflexivity|]. split; [assumption|]. right. repeat split; cbn; lia.
    + exists [a; b]. split; [reflexivity|]. split; [assumption|]. left. split; [reflexivity|]. cbn; lia.
  - cbn [nth app]. unfold slice. cbn [skipn length app]. rewrite app_length. cbn [length].
    destruct (a =? 0) eqn:E; cbn [negb].
    + exists (a :: b :: c :: body). split; [reflexivity|]. split; [assumption|]. left.
      replace (S (S (S (S (length body + 1)))) - 1 - 4)%nat with (length body) by lia. cbn [Nat.sub firstn].
      rewrite firstn_app, Nat.sub_diag, firstn_all, app_nil_r. split; [reflexivity|]. right. reflexivity.
    + exists (a :: b :: c :: body). split; [reflexivity|]. split; [assumption|]. left.
      replace (S (S (S (S (length body + 1)))) - 1 - 2)%nat with (S (S (length body))) by lia. cbn [Nat.sub firstn app].
      rewrite firstn_app, Nat.sub_diag, firstn_all, app_nil_r. split; [reflexivity|]. left. reflexivity.
Qed.

Lemma loop_image fuel : forall chans bs p e m e', Forall (fun b => 0 <= b) bs -> decode_loop fuel chans bs p e = (Some m, e') -> (length bs < fuel)%nat ->
  exists a w b, bs = a ++ w ++ b /\ e' = (p + length (a ++ w))%nat /\ appears_as w m /\ accepted chans m = true.
Proof.
  induction fuel as [|fuel IH]; intros chans bs p e m e' NN D Lf; [lia|].
  cbn [decode_loop] in D. destruct (skip_data_spec bs) as (ds & r & -> & Fd & Es & Br). rewrite Es in D. rewrite app_length in *.
  apply Forall_app in NN. destruct NN as [_ NN].
  destruct r as [|st rest]; [discriminate|]. cbn [length] in *. destruct (is_sysex st) eqn:K1.
  { unfold is_sysex in K1. pose proof (find_status_spec rest) as FS. destruct (find_status rest) as [[i x]|]; [|discriminate].
    destruct FS as (ds2 & r2 & -> & <- & F2 & _). destruct (x =? 247) eqn:Ex; [|discriminate]. injection D as <- <-.
    exists ds, (240 :: ds2 ++ [247]), r2.
    assert (st = 240) by lia. assert (x = 247) by lia. subst st x.
    split; [cbn; rewrite <- !app_assoc; reflexivity|].
    split; [rewrite app_length; cbn; rewrite app_length; cbn; lia|].
    replace (firstn (length ds2 + 2) (240 :: ds2 ++ 247 :: r2)) with (240 :: ds2 ++ [247]).
    - split; [apply sysex_image; assumption|]. unfold sysex_from_bytes. destruct (negb _); reflexivity.
    - replace (length ds2 + 2)%nat with (length (240 :: ds2 ++ [247])) by (cbn; rewrite app_length; cbn; lia).
      replace (240 :: ds2 ++ 247 :: r2) with ((240 :: ds2 ++ [247]) ++ r2) by (cbn; rewrite <- app_assoc; reflexivity).
      rewrite firstn_app, Nat.sub_diag, firstn_all, app_nil_r. reflexivity. }
  inversion NN as [|? ? N0 NN']; subst.
  destruct (is_cc st) eqn:K2.
  { apply is_cc_range in K2. destruct rest as [|c [|v rest]]; try discriminate. cbn [length] in *.
    inversion NN' as [|? ? N1 NN2]; subst. inversion NN2 as [|? ? N2 NN3]; subst.
    unfold cc_from_bytes in D. destruct ((0 <=? c) && (c <=? 127) && (0 <=? v) && (v <=? 127)) eqn:V.
    - destruct (channel_ok chans (st mod 16)) eqn:CH.
      + injection D as <- <-. exists ds, [st; c; v], rest. split; [reflexivity|]. split; [rewrite app_length; cbn; lia|].
        split; [|exact CH]. cbn. unfold a_channel, seven_bit. replace (176 + st mod 16) with st by lia. split; [reflexivity|]. lia.
      + apply IH in D; [|assumption|lia]. destruct D as (a & w & b & -> & -> & I & A).
        exists (ds ++ [st; c; v] ++ a), w, b. rewrite !app_length. cbn. rewrite <- !app_assoc. cbn. split; [reflexivity|]. split; [lia|]. split; assumption.
    - injection D as <- <-. exists ds, [st; c; v], rest. split; [reflexivity|]. split; [rewrite app_length; cbn; lia|]. split; [|reflexivity].
      cbn. split; [reflexivity|]. exists st, [c; v]. split; [reflexivity|]. split; [lia|]. unfold seven_bit.
      destruct (Z_le_gt_dec c 127); [exists v|exists c]; cbn; (split; [tauto|lia]). }
  destruct (is_pc st) eqn:K3.
  { apply is_pc_range in K3. destruct rest as [|c rest]; try discriminate. cbn [length] in *.
    inversion NN' as [|? ? N1 NN2]; subst.
    unfold pc_from_bytes in D. destruct ((0 <=? c) && (c <=? 127)) eqn:V.
    - destruct (channel_ok chans (st mod 16)) eqn:CH.
      + injection D as <- <-. exists ds, [st; c], rest. split; [reflexivity|]. split; [rewrite app_length; cbn; lia|].
        split; [|exact CH]. cbn. unfold a_channel, seven_bit. replace (192 + st mod 16) with st by lia. split; [reflexivity|]. lia.
      + apply IH in D; [|assumption|lia]. destruct D as (a & w & b & -> & -> & I & A).
        exists (ds ++ [st; c] ++ a), w, b. rewrite !app_length. cbn. rewrite <- !app_assoc. cbn. split; [reflexivity|]. split; [lia|]. split; assumption.
    - injection D as <- <-. exists ds, [st; c], rest. split; [reflexivity|]. split; [rewrite app_length; cbn; lia|]. split; [|reflexivity].
      cbn. split; [reflexivity|]. exists st, [c]. split; [reflexivity|]. split; [lia|]. unfold seven_bit.
      exists c; cbn; (split; [tauto|lia]). }
  injection D as <- <-. exists ds, [st], rest. split; [reflexivity|]. split; [rewrite app_length; cbn; lia|]. split; [|reflexivity].
  cbn. split; [reflexivity|]. unfold is_sysex, is_cc, is_pc in *. lia.
Qed.

(* nothing returned *)
Lemma loop_none fuel : forall chans bs p e e', decode_loop fuel chans bs p e = (None, e') -> (length bs < fuel)%nat ->
  (e' = p + length bs)%nat
  \/ (exists a junk t, bs = a ++ junk ++ t /\ Forall data junk /\ incomplete_tail t /\ ((a = [] /\ e' = e) \/ (a <> [] /\ e' = (p + length a)%nat)))
  \/ (exists a body x b, bs = a ++ [0xF0] ++ body ++ [x] ++ b /\ Forall data body /\ (128 <= x /\ x <> 0xF7) /\ e' = (p + length a + length body + 2)%nat).
Proof.
  induction fuel as [|fuel IH]; intros chans bs p e e' D Lf; [lia|].
  cbn [decode_loop] in D. destruct (skip_data_spec bs) as (ds & r & -> & Fd & Es & Br). rewrite Es in D. rewrite app_length in Lf.
  destruct r as [|st rest]; [injection D as <-; left; rewrite app_nil_r; reflexivity|].
  cbn [length] in Lf. destruct (is_sysex st) eqn:K1.
  { unfold is_sysex in K1. assert (st = 240) by lia. subst st. pose proof (find_status_spec rest) as FS.
    destruct (find_status rest) as [[i x]|].
    - destruct FS as (ds2 & r2 & -> & <- & F2 & Hx). destruct (x =? 247) eqn:E7; [discriminate|]. injection D as <-.
      right. right. exists ds, ds2, x, r2. split; [reflexivity|]. split; [assumption|]. split; [lia|]. lia.
    - injection D as <-. left. rewrite app_length. cbn. lia. }
  destruct (is_cc st) eqn:K2.
  { apply is_cc_range in K2. destruct rest as [|c [|v rest]].
    - injection D as <-. right. left. exists [], ds, [st]. split; [reflexivity|]. split; [assumption|]. split; [left; eexists; split; [reflexivity|lia]|left; split; reflexivity].
    - injection D as <-. right. left. exists [], ds, [st; c]. split; [reflexivity|]. split; [assumption|]. split; [right; do 2 eexists; split; [reflexivity|lia]|left; split; reflexivity].
    - cbn [length] in Lf. destruct (cc_from_bytes st c v); [|discriminate]. destruct (channel_ok chans (st mod 16)); [discriminate|].
      apply IH in D; [|lia]. destruct D as [->|[(a & junk & t & -> & Fj & T & D)|(a & body & x & b & -> & Fb & Hx & ->)]].
      + left. rewrite app_length. cbn. lia.
      + right. left. exists (ds ++ [st; c; v] ++ a), junk, t. split; [rewrite <- !app_assoc; reflexivity|]. split; [assumption|]. split; [assumption|].
        right. split; [destruct ds; discriminate|]. rewrite !app_length. cbn [length]. destruct D as [[-> ->]|[_ ->]]; cbn; lia.
      + right. right. exists (ds ++ [st; c; v] ++ a), body, x, b. split; [rewrite <- !app_assoc; reflexivity|]. split; [assumption|]. split; [assumption|].
        rewrite !app_length. cbn [length]. lia. }
  destruct (is_pc st) eqn:K3; [|discriminate].
  apply is_pc_range in K3. destruct rest as [|c rest].
  - injection D as <-. right. left. exists [], ds, [st]. split; [reflexivity|]. split; [assumption|]. split; [left; eexists; split; [reflexivity|lia]|left; split; reflexivity].
  - cbn [length] in Lf. destruct (pc_from_bytes st c); [|discriminate]. destruct (channel_ok chans (st mod 16)); [discriminate|].
    apply IH in D; [|lia]. destruct D as [->|[(a & junk & t & -> & Fj & T & D)|(a & body & x & b & -> & Fb & Hx & ->)]].
    + left. rewrite app_length. cbn. lia.
    + right. left. exists (ds ++ [st; c] ++ a), junk, t. split; [rewrite <- !app_assoc; reflexivity|]. split; [assumption|]. split; [assumption|].
      right. split; [destruct ds; discriminate|]. rewrite !app_length. cbn [length]. destruct D as [[-> ->]|[_ ->]]; cbn; lia.
    + right. right. exists (ds ++ [st; c] ++ a), body, x, b. split; [rewrite <- !app_assoc; reflexivity|]. split; [assumption|]. split; [assumption|].
      rewrite !app_length. cbn [length]. lia.
Qed.

Lemma receive_skip chans buf chunk m e : decode chans (buf ++ chunk) = (m, e) -> receive chans buf chunk = (skipn e (buf ++ chunk), m).
Proof.
  intros D. unfold receive. rewrite D. destruct (e =? 0)%nat eqn:E; [|reflexivity]. apply Nat.eqb_eq in E. subst e. reflexivity.
Qed.

Lemma receive_message chans buf chunk buf' m : Forall (fun b => 0 <= b) (buf ++ chunk) -> receive chans buf chunk = (buf', Some m) ->
  exists before w, buf ++ chunk = before ++ w ++ buf' /\ appears_as w m /\ w <> [] /\ accepted chans m = true.
Proof.
  intros NN R. destruct (decode chans (buf ++ chunk)) as [m0 e] eqn:D. rewrite (receive_skip _ _ _ _ _ D) in R. injection R as <- ->.
  unfold decode in D. destruct (loop_image _ _ _ _ _ _ _ NN D) as (a & w & b & E & -> & I & A); [lia|].
  exists a, w. rewrite E. replace (skipn (0 + length (a ++ w)) (a ++ w ++ b)) with b.
  - split; [reflexivity|]. split; [exact I|]. split; [|exact A]. destruct m; cbn in I.
    + destruct I as [-> _]; discriminate.
    + destruct I as [-> _]; discriminate.
    + destruct I as (body & -> & _). discriminate.
    + destruct I as [-> _]; discriminate.
    + destruct I as (-> & st & d & -> & _). discriminate.
  - rewrite app_assoc, skipn_app. cbn [plus]. rewrite Nat.sub_diag, skipn_all. reflexivity.
Qed.

Lemma receive_nothing chans buf chunk buf' : receive chans buf chunk = (buf', None) ->
  exists before, buf ++ chunk = before ++ buf' /\
  (buf' = [] \/ (exists junk t, buf' = junk ++ t /\ Forall data junk /\ incomplete_tail t)
   \/ (exists a body x, before = a ++ [0xF0] ++ body ++ [x] /\ Forall data body /\ (128 <= x /\ x <> 0xF7))).
Proof.
  intros R. destruct (decode chans (buf ++ chunk)) as [m0 e] eqn:D. rewrite (receive_skip _ _ _ _ _ D) in R. injection R as <- ->.
  exists (firstn e (buf ++ chunk)). split; [rewrite firstn_skipn; reflexivity|].
  unfold decode in D. destruct (loop_none _ _ _ _ _ _ D) as [->|[(a & junk & t & E & Fj & T & [[-> ->]|[_ ->]])|(a & body & x & b & E & Fb & Hx & ->)]]; [lia|..].
  - left. cbn. apply skipn_all.
  - right. left. exists junk, t. rewrite E. repeat split; assumption.
  - right. left. exists junk, t. rewrite E. cbn [plus]. rewrite skipn_app, skipn_all, Nat.sub_diag. repeat split; assumption.
  - right. right. exists a, body, x. split; [|split; assumption]. rewrite E. cbn [plus].
    replace (a ++ [0xF0] ++ body ++ [x] ++ b) with ((a ++ [0xF0] ++ body ++ [x]) ++ b) by (rewrite <- !app_assoc; reflexivity).
    replace (length a + length body + 2)%nat with (length (a ++ [0xF0] ++ body ++ [x])) by (rewrite !app_length; cbn; lia).
    rewrite firstn_app, Nat.sub_diag, firstn_all. cbn [firstn]. apply app_nil_r.
Qed.

Lemma receive_short chans buf chunk : (length (fst (receive chans buf chunk)) <= length (buf ++ chunk))%nat.
Proof.
  destruct (decode chans (buf ++ chunk)) as [m e] eqn:D. rewrite (receive_skip _ _ _ _ _ D). cbn [fst]. rewrite skipn_length. lia.
Qed.
Lemma receive_all_cons chans buf c cs :
  receive_all chans buf (c :: cs)
  = (fst (receive_all chans (fst (receive chans buf c)) cs), snd (receive chans buf c) :: snd (receive_all chans (fst (receive chans buf c)) cs)).
Proof. cbn [receive_all]. destruct (receive chans buf c) as [b m]. cbn [fst snd]. destruct (receive_all chans b cs). reflexivity. Qed.

Lemma buffer_bound size chans chunks : forall buf, reads_ok size chans buf chunks -> (length buf <= size)%nat ->
  (length (fst (receive_all chans buf chunks)) <= size)%nat.
Proof.
  induction chunks as [|c cs IH]; intros buf R L; [exact L|]. rewrite receive_all_cons. cbn [fst]. destruct R as [R1 R2].
  apply IH; [assumption|]. pose proof (receive_short chans buf c) as S1. rewrite app_length in S1. unfold read_ok in R1. lia.
Qed.

Lemma appears_wire w m : appears_as w m -> valid m -> w = wire m.
Proof.
  destruct m as [ch c v|ch p|man ds|st|bs]; cbn [appears_as valid]; try tauto.
  intros (body & -> & _ & [[-> _]|(_ & -> & ->)]) (_ & F & _).
  - cbn. rewrite <- app_assoc. reflexivity.
  - apply Forall_app in F. destruct F as [_ F]. inversion F as [|? ? B]; subst. unfold seven_bit in B. lia.
Qed.

Lemma received_fits size chans chunks m : forall buf, Forall (fun b => 0 <= b) (buf ++ concat chunks) -> reads_ok size chans buf chunks -> (length buf <= size)%nat ->
  In m (messages (snd (receive_all chans buf chunks))) -> valid m -> (length (wire m) <= size)%nat.
Proof.
  induction chunks as [|c cs IH]; intros buf NN R L I V; [destruct I|]. rewrite receive_all_cons in I. cbn [snd] in I. destruct R as [R1 R2].
  unfold read_ok in R1. cbn [concat] in NN. rewrite app_assoc in NN. apply Forall_app in NN. destruct NN as [N1 N2].
  assert (L1 : (length (buf ++ c) <= size)%nat) by (rewrite app_length; lia).
  destruct (receive chans buf c) as [b [m'|]] eqn:E; cbn [fst snd messages] in I, R2.
  - destruct (receive_message _ _ _ _ _ N1 E) as (a & w & Ea & A & _ & _). rewrite Ea in *. rewrite !app_length in L1.
    destruct I as [->|I].
    + rewrite <- (appears_wire w m A V). lia.
    + apply (IH b); try assumption; [|lia]. apply Forall_app. split; [|assumption]. apply Forall_app in N1. destruct N1 as [_ N1].
      apply Forall_app in N1. apply N1.
  - destruct (receive_nothing _ _ _ _ E) as (a & Ea & _). rewrite Ea in *. rewrite app_length in L1.
    apply (IH b); try assumption; [|lia]. apply Forall_app. split; [|assumption]. apply Forall_app in N1. apply N1.
Qed.

(* a system exclusive message cut in two *)
Lemma loop_open fuel chans ds p e : Forall data ds -> decode_loop (S fuel) chans (240 :: ds) p e = (None, (p + 1 + length ds)%nat).
Proof.
  intros F. cbn [decode_loop skip_data]. change (128 <=? 240) with true. cbn iota. change (is_sysex 240) with true. cbn iota.
  rewrite <- (app_nil_r ds), find_status_app by assumption. cbn [find_status]. rewrite app_nil_r, Nat.add_0_r. reflexivity.
Qed.
Lemma loop_end fuel chans ds p e : Forall data ds -> decode_loop (S fuel) chans (ds ++ [247]) p e = (Some (WUnknown 247), (p + length ds + 1)%nat).
Proof.
  intros F. cbn [decode_loop]. rewrite skip_data_app by assumption. cbn [skip_data]. change (128 <=? 247) with true. cbn iota.
  change (is_sysex 247) with false. change (is_cc 247) with false. change (is_pc 247) with false. cbn iota. rewrite Nat.add_0_r. reflexivity.
Qed.
Lemma sysex_cut chans man ds k : valid (WSysEx man ds) -> (0 < k < length (wire (WSysEx man ds)))%nat ->
  received chans [firstn k (wire (WSysEx man ds)); skipn k (wire (WSysEx man ds))] = [WUnknown 247].
Proof.
  intros (_ & F1 & F2) L. unfold received. cbn [wire] in *.
  replace ([0xF0] ++ man ++ ds ++ [0xF7]) with (240 :: (man ++ ds) ++ [247]) in * by (cbn; rewrite <- app_assoc; reflexivity).
  assert (F : Forall data (man ++ ds)) by (apply Forall_app; split; apply seven_data; assumption).
  set (body := man ++ ds) in *. cbn [length] in L. rewrite app_length in L. cbn [length] in L.
  destruct k as [|k]; [lia|]. cbn [firstn skipn]. rewrite firstn_app, skipn_app.
  replace (k - length body)%nat with 0%nat by lia. cbn [firstn skipn]. rewrite app_nil_r.
  assert (Fa : Forall data (firstn k body)) by (rewrite <- (firstn_skipn k body) in F; apply Forall_app in F; apply F).
  assert (Fb : Forall data (skipn k body)) by (rewrite <- (firstn_skipn k body) in F; apply Forall_app in F; apply F).
  cbn [receive_all]. unfold receive at 1. cbn [app]. unfold decode at 1. rewrite loop_open by assumption. cbn [plus Nat.eqb negb].
  change (S (length (firstn k body))) with (length (240 :: firstn k body)). rewrite skipn_all.
  unfold receive. cbn [app]. unfold decode. rewrite loop_end by assumption. reflexivity.
Qed.

(* the receiver gets stuck *)
Lemma loop_stuck fuel chans junk st p : Forall data junk -> 0xB0 <= st <= 0xCF -> decode_loop (S fuel) chans (junk ++ [st]) p 0 = (None, 0%nat).
Proof.
  intros F H. cbn [decode_loop]. rewrite skip_data_app by assumption. cbn [skip_data]. replace (128 <=? st) with true by lia.
  unfold is_sysex. replace (st =? 240) with false by lia. destruct (is_cc st) eqn:E1; [reflexivity|]. destruct (is_pc st) eqn:E2; [reflexivity|].
  unfold is_cc, is_pc in *. lia.
Qed.
Lemma stuck size chans junk st later : Forall data junk -> 0xB0 <= st <= 0xCF -> length (junk ++ [st]) = size ->
  reads_ok size chans (junk ++ [st]) later -> Forall (fun c => c = []) later /\ receive_all chans (junk ++ [st]) later = (junk ++ [st], map (fun _ => None) later).
Proof.
  intros F H L. induction later as [|c later IH]; intros R; [split; [constructor|reflexivity]|].
  destruct R as [R1 R2]. unfold read_ok in R1. assert (c = []) by (destruct c; [reflexivity|cbn in R1; lia]). subst c.
  assert (E : receive chans (junk ++ [st]) [] = (junk ++ [st], None)).
  { unfold receive, decode. rewrite app_nil_r, loop_stuck by assumption. reflexivity. }
  rewrite E in R2. cbn [fst] in R2. destruct (IH R2) as [I1 I2]. split; [constructor; [reflexivity|assumption]|].
  cbn [receive_all map]. rewrite E, I2. reflexivity.
Qed.

Lemma device_send_wire oc m : a_channel oc -> valid m -> device_send oc m = Ok (wire (on_channel oc m)) /\ valid (on_channel oc m).
Proof.
  intros O V. assert (W : valid (on_channel oc m)) by (destruct m; cbn in *; tauto). split; [|assumption].
  rewrite <- (encode_wire _ W). destruct m; cbn in *; tauto.
Qed.

Lemma all_accepted ms : Forall valid ms -> filter (accepted all_channels) ms = ms.
Proof.
  induction 1 as [|m ms V F IH]; [reflexivity|]. cbn [filter]. rewrite IH. replace (accepted all_channels m) with true; [reflexivity|].
  destruct m; cbn [valid accepted] in *; try reflexivity; destruct V as [[? ?] _]; cbn; lia.
Qed.

Lemma send_receive groups oc bytes n : a_channel oc -> Forall valid (concat groups) ->
  Forall2 (fun g b => Forall2 (fun m w => device_send oc m = Ok w) g b) groups bytes ->
  (length (concat groups) <= n)%nat ->
  received all_channels (map (@concat Z) bytes ++ repeat [] n) = map (on_channel oc) (concat groups).
Proof.
  intros O F S L.
  assert (E : map (@concat Z) bytes = map wires (map (map (on_channel oc)) groups)).
  { clear L n. induction S as [|g b gs bs S1 S2 IH]; [reflexivity|]. cbn [concat map] in *. apply Forall_app in F. destruct F as [F1 F2].
    rewrite IH by assumption. f_equal. clear - S1 F1 O. induction S1 as [|m w g b E S IH]; [reflexivity|].
    inversion F1 as [|? ? V F]; subst. cbn [concat map]. rewrite wires_cons, IH by assumption.
    destruct (device_send_wire oc m O V) as [D _]. rewrite D in E. injection E as <-. reflexivity. }
  rewrite E.
  assert (FV : Forall valid (map (on_channel oc) (concat groups))).
  { apply Forall_map. revert F. apply Forall_impl. intros m V. apply device_send_wire; assumption. }
  rewrite concat_map in FV |- *. rewrite received_groups; [apply all_accepted; assumption|assumption|].
  rewrite <- concat_map, map_length. assumption.
Qed.

(* The port *)
Lemma port_step size m P t buf avail : valid m -> (length (wire m) <= size)%nat ->
  (length buf <= size)%nat -> buf ++ avail = wires (m :: P) ++ t ->
  exists buf' avail', port_receive size all_channels buf avail = (buf', avail', Some m) /\ buf' ++ avail' = wires P ++ t /\ (length buf' <= size)%nat.
Proof.
  intros V L Lb E. unfold port_receive.
  set (n := (if length buf <? size then size - length buf else 0)%nat).
  assert (Hn : n = (size - length buf)%nat) by (unfold n; destruct (length buf <? size)%nat eqn:H; lia).
  assert (E1 : buf ++ firstn n avail = firstn size (buf ++ avail)).
  { rewrite firstn_app, (firstn_all2 buf) by lia. rewrite Hn. reflexivity. }
  assert (E2 : exists l, buf ++ firstn n avail = wire m ++ l).
  { rewrite E1, E, wires_cons, <- app_assoc, firstn_app, (firstn_all2 (wire m)) by lia. eexists. reflexivity. }
  destruct E2 as [l E2].
  assert (R : receive all_channels buf (firstn n avail) = (l, Some m)).
  { erewrite receive_skip.
    2:{ unfold decode. rewrite E2, loop_msg by assumption.
        replace (accepted all_channels m) with true; [reflexivity|]. pose proof (all_accepted [m]) as A. cbn [filter] in A.
        destruct (accepted all_channels m); [reflexivity|]. discriminate A. constructor; [assumption|constructor]. }
    rewrite E2. cbn [plus]. rewrite skipn_app, skipn_all, Nat.sub_diag. reflexivity. }
  rewrite R. exists l, (skipn n avail). split; [reflexivity|].
  assert (E3 : wire m ++ l ++ skipn n avail = wire m ++ wires P ++ t).
  { rewrite app_assoc, <- E2, <- app_assoc, firstn_skipn, E, wires_cons, <- app_assoc. reflexivity. }
  apply app_inv_head in E3. split; [assumption|].
  pose proof (f_equal (@length Z) E2) as L2. rewrite E1, firstn_length, !app_length in L2. pose proof (wire_pos m V). lia.
Qed.
Lemma port_idle size t buf avail : tail_ok t -> (length t <= size)%nat -> buf ++ avail = t -> (length buf <= size)%nat ->
  exists buf' avail', port_receive size all_channels buf avail = (buf', avail', None) /\ buf' ++ avail' = t /\ (length buf' <= size)%nat.
Proof.
  intros T L E Lb. unfold port_receive. set (n := (if length buf <? size then size - length buf else 0)%nat).
  assert (Hn : n = (size - length buf)%nat) by (unfold n; destruct (length buf <? size)%nat eqn:H; lia).
  assert (length buf + length avail = length t)%nat by (rewrite <- E, app_length; reflexivity).
  rewrite (firstn_all2 avail), (skipn_all2 avail) by lia.
  erewrite receive_skip.
  2:{ unfold decode. rewrite E, loop_tail by assumption. reflexivity. }
  cbn [skipn]. exists (buf ++ avail), []. rewrite app_nil_r, E. repeat split; lia.
Qed.

Lemma tail_short t : tail_ok t -> (length t <= 2)%nat.
Proof. intros [->|[(? & -> & _)|(? & ? & -> & _)]]; cbn; lia. Qed.

Lemma port_drain size n : forall P t buf avail, Forall valid P -> Forall (fun m => (length (wire m) <= size)%nat) P -> (2 <= size)%nat -> tail_ok t ->
  (length buf <= size)%nat -> buf ++ avail = wires P ++ t ->
  messages (port_all size all_channels buf avail (repeat [] n)) = firstn n P.
Proof.
  induction n as [|n IH]; intros P t buf avail F FL S T Lb E; [destruct P; reflexivity|].
  cbn [repeat port_all]. rewrite app_nil_r. destruct P as [|m P].
  - destruct (port_idle size t buf avail T) as (b & a & -> & E' & L'); try assumption; [pose proof (tail_short t T); lia|].
    cbn [messages firstn]. rewrite (IH [] t b a); try assumption; [destruct n; reflexivity].
  - inversion F; inversion FL; subst. destruct (port_step size m P t buf avail) as (b & a & -> & E' & L'); try assumption.
    cbn [messages firstn]. rewrite (IH P t b a); try assumption; reflexivity.
Qed.

Fixpoint port_state (size : nat) (buf avail : list Z) (arrivals : list (list Z)) : list Z * list Z :=
  match arrivals with
  | [] => (buf, avail)
  | a :: arrivals' => let '(b, av, _) := port_receive size all_channels buf (avail ++ a) in port_state size b av arrivals'
  end.
Lemma port_all_app size a1 : forall buf avail a2,
  port_all size all_channels buf avail (a1 ++ a2)
  = port_all size all_channels buf avail a1 ++ port_all size all_channels (fst (port_state size buf avail a1)) (snd (port_state size buf avail a1)) a2.
Proof.
  induction a1 as [|a a1 IH]; intros buf avail a2; cbn [app port_all port_state]; [reflexivity|].
  destruct (port_receive size all_channels buf (avail ++ a)) as [[b av] m]. cbn [app]. rewrite IH. reflexivity.
Qed.
Lemma port_state_app size a1 : forall buf avail a2,
  port_state size buf avail (a1 ++ a2) = port_state size (fst (port_state size buf avail a1)) (snd (port_state size buf avail a1)) a2.
Proof.
  induction a1 as [|a a1 IH]; intros buf avail a2; cbn [app port_state]; [reflexivity|].
  destruct (port_receive size all_channels buf (avail ++ a)) as [[b av] m]. apply IH.
Qed.

Lemma port_run size ms arrivals : Forall valid ms -> Forall (fun m => (length (wire m) <= size)%nat) ms -> (2 <= size)%nat ->
  (forall pre post, arrivals = pre ++ post -> outside_sysex ms (length (concat pre))) ->
  (exists later, concat arrivals ++ later = wires ms) ->
  exists P, fst (port_state size [] [] arrivals) ++ snd (port_state size [] [] arrivals) = wires P ++ snd (locate ms (length (concat arrivals)))
  /\ fst (locate ms (length (concat arrivals))) = messages (port_all size all_channels [] [] arrivals) ++ P
  /\ (length (fst (port_state size [] [] arrivals)) <= size)%nat.
Proof.
  intros F FL S. induction arrivals as [|arrivals c IH] using rev_ind_snoc; intros O [later E].
  - exists []. cbn. assert (locate ms 0 = ([], [])) as ->.
    { destruct ms as [|m ms]; [reflexivity|]. inversion F; subst. cbn [locate]. pose proof (wire_pos m H1).
      replace (length (wire m) <=? 0)%nat with false by lia. reflexivity. }
    repeat split. lia.
  - destruct IH as (P & E1 & E2 & LB).
    { intros pre post ->. apply (O pre (post ++ [c])). rewrite app_assoc. reflexivity. }
    { exists (c ++ later). rewrite concat_app in E. cbn in E. rewrite app_nil_r, <- app_assoc in E. exact E. }
    set (k := length (concat arrivals)) in *. set (k' := length (concat (arrivals ++ [c]))).
    assert (Ek : k' = (k + length c)%nat).
    { unfold k', k. rewrite concat_app, app_length. cbn. rewrite app_nil_r. reflexivity. }
    destruct (locate_mono ms k k') as [X EX]; [lia|].
    assert (B1 := locate_bytes ms k). assert (B2 := locate_bytes ms k').
    assert (T2 : tail_ok (snd (locate ms k'))).
    { apply locate_tail; [assumption|]. apply (O (arrivals ++ [c]) []). rewrite app_nil_r. reflexivity. }
    assert (Hc : firstn k' (wires ms) = firstn k (wires ms) ++ c).
    { rewrite concat_app in E. cbn in E. rewrite app_nil_r, <- app_assoc in E. rewrite <- E.
      rewrite !firstn_app. rewrite (firstn_all2 (concat arrivals)) by (fold k; lia).
      rewrite (firstn_all2 (concat arrivals)) by (fold k; lia). fold k. rewrite Nat.sub_diag. cbn [firstn]. rewrite app_nil_r.
      f_equal. replace (k' - k)%nat with (length c) by lia. rewrite Nat.sub_diag, firstn_all. cbn [firstn]. apply app_nil_r. }
    rewrite Hc, <- B1, EX, wires_app, <- !app_assoc in B2. apply app_inv_head in B2.
    rewrite port_state_app, port_all_app. set (b := fst (port_state size [] [] arrivals)) in *. set (av := snd (port_state size [] [] arrivals)) in *.
    assert (EE : b ++ av ++ c = wires (P ++ X) ++ snd (locate ms k')).
    { rewrite app_assoc, E1, wires_app, <- !app_assoc. f_equal. symmetry. exact B2. }
    cbn [port_state port_all].
    assert (FX : Forall valid (P ++ X) /\ Forall (fun m => (length (wire m) <= size)%nat) (P ++ X)).
    { assert (SUB : exists Y, ms = fst (locate ms k') ++ Y).
      { destruct (locate_mono ms k' (k' + length (wires ms))) as [Y EY]; [lia|]. rewrite locate_all in EY by lia. exists Y. exact EY. }
      destruct SUB as [Y EY]. rewrite EY, EX, E2 in F, FL. rewrite <- !app_assoc in F, FL.
      apply Forall_app in F, FL. destruct F as [_ F], FL as [_ FL]. rewrite app_assoc in F, FL. apply Forall_app in F, FL. split; [apply F|apply FL]. }
    destruct FX as [FX FXL]. destruct (P ++ X) as [|m Q] eqn:EPX.
    + destruct (port_idle size (snd (locate ms k')) b (av ++ c) T2) as (b' & a' & -> & E' & L'); try assumption; [pose proof (tail_short _ T2); lia|].
      exists []. cbn [fst snd messages]. split; [exact E'|]. split; [|assumption].
      rewrite messages_app. cbn [messages]. apply app_eq_nil in EPX. destruct EPX as [-> ->]. rewrite EX, E2, !app_nil_r. reflexivity.
    + inversion FX; inversion FXL; subst.
      destruct (port_step size m Q (snd (locate ms k')) b (av ++ c)) as (b' & a' & -> & E' & L'); try assumption.
      exists Q. cbn [fst snd messages]. split; [exact E'|]. split; [|assumption].
      rewrite messages_app. cbn [messages]. rewrite EX, E2, <- !app_assoc, EPX. reflexivity.
Qed.

Lemma port_complete size ms arrivals n : Forall valid ms -> Forall (fun m => (length (wire m) <= size)%nat) ms -> (2 <= size)%nat ->
  concat arrivals = wires ms ->
  (forall pre post, arrivals = pre ++ post -> outside_sysex ms (length (concat pre))) ->
  (length ms <= n)%nat ->
  messages (port_all size all_channels [] [] (arrivals ++ repeat [] n)) = ms.
Proof.
  intros F FL S E O L. destruct (port_run size ms arrivals F FL S O) as (P & E1 & E2 & LB); [exists []; rewrite app_nil_r; assumption|].
  assert (EL : locate ms (length (concat arrivals)) = (ms, [])) by (rewrite E; apply locate_all; lia). rewrite EL in *. cbn [fst snd] in *.
  rewrite port_all_app, messages_app.
  assert (Fp := F). assert (FLp := FL). rewrite E2 in Fp, FLp. apply Forall_app in Fp, FLp.
  rewrite (port_drain size n P [] _ _); try tauto; [|left; reflexivity].
  rewrite firstn_all2; [symmetry; exact E2|]. rewrite E2, app_length in L. lia.
Qed.
