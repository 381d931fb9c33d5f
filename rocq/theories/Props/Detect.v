(* C121: finding a Kemper at a MIDI port. *)
From Coq Require Import Lia.
From Verif.Lib Require Import Base.
From Verif.Model Require Import Midi Mapping KemperMappings Detect.
From Verif.Spec Require Import Detect.
Open Scope Z_scope.

Lemma same_eq a b : same a b = true <-> a = b.
Proof. revert b. induction a as [|x a IH]; intros [|y b]; cbn; split; try discriminate; auto; rewrite andb_true_iff, Z.eqb_eq, IH; [intros [-> ->]; reflexivity|intros E; injection E as -> ->; auto]. Qed.
Lemma bytes_eq a b : bytes_eqb a b = true <-> a = b.
Proof. revert b. induction a as [|x a IH]; intros [|y b]; cbn; split; try discriminate; auto; rewrite andb_true_iff, Z.eqb_eq, IH; [intros [-> ->]; reflexivity|intros E; injection E as -> ->; auto]. Qed.
Lemma detects_wire man data : length man = 3%nat ->
  detects (0xf0 :: man ++ data ++ [0xf7]) = same man manufacturer && same (js_slice data 2 6) [0x01; 0x00; 0x04; 0x01].
Proof.
  intros L. destruct man as [|a [|b [|c [|? ?]]]]; try discriminate. unfold detects.
  replace (last (240 :: [a; b; c] ++ data ++ [247]) 0) with 247 by (rewrite !app_comm_cons, !List.app_assoc, last_last; reflexivity).
  cbn [Z.eqb negb orb app]. change (js_slice (240 :: a :: b :: c :: data ++ [247]) 1 4) with [a; b; c].
  assert (E : js_slice (240 :: a :: b :: c :: data ++ [247]) 4 (length (240 :: a :: b :: c :: data ++ [247]) - 1) = data).
  { unfold js_slice. cbn [length]. rewrite app_length. cbn [length]. replace (S (S (S (S (length data + 1)))) - 1)%nat with (4 + length data)%nat by lia. cbn [firstn Nat.add skipn]. rewrite firstn_app, firstn_all, Nat.sub_diag. cbn. apply List.app_nil_r. }
  rewrite E. cbn. destruct (same [a; b; c] manufacturer) eqn:S; cbn in S; rewrite S; reflexivity.
Qed.

(* A port is taken exactly if the message is a system exclusive message of Kemper with a value of the rig volume, from any product and device, whatever follows. *)
Theorem C121_exact : forall data, detects data = true <-> exists product device rest, data = [0xf0; 0x00; 0x20; 0x33; product; device; 0x01; 0x00; 0x04; 0x01] ++ rest ++ [0xf7].
Proof.
  intros data. split.
  - destruct data as [|f data]; [discriminate|]. destruct (exists_last (l := f :: data) ltac:(discriminate)) as (front & z & E). rewrite E. intros H.
    assert (Z : f = 240 /\ z = 247).
    { rewrite <- E in H. unfold detects in H. rewrite E, last_last in H. destruct (Z.eqb_spec f 240) as [A|A]; [|discriminate]. destruct (Z.eqb_spec z 247) as [B|B]; [auto|discriminate]. }
    destruct Z as [-> ->]. destruct front as [|g front]; [injection E as E; discriminate|]. injection E as <- E. cbn [app] in H.
    destruct (Nat.lt_ge_cases (length front) 3) as [S|S].
    { exfalso. destruct front as [|a [|b [|c front]]]; cbn in S; try lia; unfold detects in H; cbn in H; repeat match type of H with context [?x =? ?y] => destruct (x =? y); cbn in H end; discriminate. }
    destruct front as [|a [|b [|c d]]]; cbn in S; try lia. clear S E. change (detects (240 :: [a; b; c] ++ d ++ [247]) = true) in H. rewrite detects_wire in H by reflexivity.
    apply andb_true_iff in H. destruct H as [A B]. apply same_eq in A, B. injection A as -> -> ->.
    destruct d as [|p [|v [|d1 [|d2 [|d3 [|d4 d]]]]]]; try discriminate. unfold js_slice in B. cbn in B. injection B as -> -> -> ->. exists p, v, d. reflexivity.
  - intros (p & v & rest & ->). pose proof (detects_wire [0x00; 0x20; 0x33] (p :: v :: [0x01; 0x00; 0x04; 0x01] ++ rest) eq_refl) as D. cbn [app] in D |- *. rewrite D. reflexivity.
Qed.
Print Assumptions C121_exact.

(* This is what the firmware understands: the web application takes a port for a Kemper exactly if the firmware gets a value for its rig volume out of the same message. *)
Theorem C121_firmware : forall man data bytes resp, length man = 3%nat -> wire (SysEx man data) = Some bytes -> k_response (kemper RigVolume) = TOne resp ->
  (detects bytes = true <-> exists v, parse_against Numeric (SysEx man data) (Some resp) = Ok (Some v)).
Proof.
  intros man data bytes resp L W R. injection W as <-. injection R as <-. rewrite detects_wire by exact L. unfold parse_against, nrpn.
  destruct (bytes_eqb man [0x00; 0x20; 0x33]) eqn:A.
  - apply bytes_eq in A. subst man. cbn [negb]. replace (same [0; 32; 51] manufacturer) with true by reflexivity. cbn [andb]. change (slice [2; 127; f_response_single; 0; 4; 1] 2 6) with [1; 0; 4; 1]. unfold js_slice. fold (slice data 2 6).
    destruct (bytes_eqb (slice data 2 6) [1; 0; 4; 1]) eqn:B; cbn [negb].
    + apply bytes_eq in B. rewrite B. split; [intros _|reflexivity]. destruct data as [|a [|b [|c [|d [|e [|f data]]]]]]; try discriminate. clear B. unfold last_two.
      assert (N : (2 <= length (rev (a :: b :: c :: d :: e :: f :: data)))%nat) by (rewrite rev_length; cbn; lia). destruct (rev (a :: b :: c :: d :: e :: f :: data)) as [|x [|y r]]; cbn in N; try lia. eexists. reflexivity.
    + split; [intros S; apply same_eq in S; rewrite S in B; discriminate|intros [v H]; discriminate].
  - cbn [negb]. split; [|intros [v H]; discriminate]. intros H. apply andb_true_iff in H. destruct H as [H _]. apply same_eq in H. subst man. discriminate.
Qed.
Print Assumptions C121_firmware.

(* The request is the one of the firmware, and its own echo (a port connected to itself) is not taken for an answer. *)
Theorem C121_request : (exists m, k_request (kemper RigVolume) = TOne m /\ wire m = Some request) /\ detects request = false.
Proof. split; [eexists; split; reflexivity|reflexivity]. Qed.
Print Assumptions C121_request.

Example ex_detect : detects [0xf0; 0x00; 0x20; 0x33; 0; 0; 1; 0; 4; 1; 64; 0; 0xf7] = true /\ detects [0xf0; 0x00; 0x20; 0x33; 0; 0; 1; 0; 4; 2; 64; 0; 0xf7] = false /\ detects [] = false /\ detects [0xf0; 0xf7] = false.
Proof. repeat split; reflexivity. Qed.
