(* C114: the MIDI channels of the emulator. *)
From Coq Require Import String QArith DecimalString Lia.
From Verif.Lib Require Import Base.
From Verif.Model Require Import Midi Label Pages Storage Channels Codec.
From Verif.Spec Require Import Storage Channels.
From Verif.Proofs Require Import Storage.
From Verif.Props Require Pages.
Open Scope string_scope.
Open Scope Z_scope.
Local Open Scope list_scope.

Lemma crun_snoc v ops o : crun v (ops ++ [o]) = cstep v (crun v ops) o.
Proof. unfold crun. rewrite fold_left_app. reflexivity. Qed.
Lemma last_in_snoc ops o : last_in (ops ++ [o]) = match o with TypeIn t => t | ResetComm => "All" | _ => last_in ops end.
Proof. unfold last_in. rewrite fold_left_app. reflexivity. Qed.
Lemma last_out_snoc ops o : last_out (ops ++ [o]) = match o with TypeOut t => t | ResetComm => "1" | _ => last_out ops end.
Proof. unfold last_out. rewrite fold_left_app. reflexivity. Qed.

Lemma get_set v d st : comm_get v (comm_set v d st) = d.
Proof. unfold comm_get, comm_set. rewrite local_get_set, !String.eqb_refl. reflexivity. Qed.
Lemma text_all ch : channel ch -> String.eqb (text ch) "All" = false.
Proof.
  intros P. apply String.eqb_neq. intros E. assert (H : parse_int (text ch) = Some ch) by (apply Pages.parse_dec; unfold channel in P; lia). rewrite E in H. discriminate.
Qed.
Lemma value_text ch : channel ch -> channel_value (text ch) = JNum (inject_Z (ch - 1)).
Proof.
  intros P. unfold channel_value. rewrite text_all by exact P. replace (parse_int (text ch)) with (Some ch); [reflexivity|].
  symmetry. apply Pages.parse_dec. unfold channel in P. lia.
Qed.
Lemma else_apart v st o : sensible v (Else o) -> comm_get v (sstep v st o) = comm_get v st.
Proof.
  intros S. unfold comm_get. replace (local_get (SETTINGS v) "communication" (sstep v st o)) with (local_get (SETTINGS v) "communication" st); [reflexivity|].
  destruct o as [n q|n b| |u]; cbn [sstep].
  - destruct (existsb _ _); [|reflexivity]. unfold set_attribute, config_set. rewrite local_get_set, String.eqb_refl. reflexivity.
  - destruct (existsb _ _); [|reflexivity]. unfold set_attribute, config_set. rewrite local_get_set, String.eqb_refl. reflexivity.
  - unfold config_set. rewrite local_get_set, String.eqb_refl. reflexivity.
  - destruct u; try (symmetry; apply settings_apart; exact (fun x => x)).
    cbn [ustep]. rewrite local_get_set. destruct (String.eqb_spec (SETTINGS v) (local_id (Some version) id)); [|reflexivity].
    destruct (String.eqb_spec "communication" key); [|reflexivity]. exfalso. apply S. split; congruence.
Qed.

(* What is stored *)
Lemma stored v ops : Forall (sensible v) ops ->
  (field "inChannel" (comm_get v (crun v ops)) = Some (channel_value (last_in ops)) \/ (field "inChannel" (comm_get v (crun v ops)) = None /\ last_in ops = "All")) /\
  (field "outChannel" (comm_get v (crun v ops)) = Some (channel_value (last_out ops)) \/ (field "outChannel" (comm_get v (crun v ops)) = None /\ last_out ops = "1")) /\
  (last_in ops = "All" \/ exists ch, channel ch /\ last_in ops = text ch) /\ (exists ch, channel ch /\ last_out ops = text ch).
Proof.
  induction ops as [|o ops IH] using rev_ind; intros F.
  - repeat split; [right; auto|right; auto|left; reflexivity|exists 1; split; [unfold channel; lia|reflexivity]].
  - apply Forall_app in F. destruct F as [F G]. inversion G as [|? ? S _]; subst. destruct (IH F) as (A & B & C & D). clear IH. rewrite crun_snoc, last_in_snoc, last_out_snoc.
    destruct o as [t|t|b| |o]; cbn [cstep].
    + unfold comm_set_attribute. rewrite get_set, !field_put. cbn. auto.
    + unfold comm_set_attribute. rewrite get_set, !field_put. cbn. auto.
    + unfold comm_set_attribute. rewrite get_set, !field_put. cbn. auto.
    + rewrite get_set. repeat split; [right; auto|right; auto|left; reflexivity|exists 1; split; [unfold channel; lia|reflexivity]].
    + rewrite else_apart by exact S. auto.
Qed.
Lemma text_inj a b : channel a -> channel b -> text a = text b -> a = b.
Proof.
  intros P Q E. assert (H : parse_int (text a) = Some a) by (apply Pages.parse_dec; unfold channel in P; lia).
  rewrite E in H. assert (K : parse_int (text b) = Some b) by (apply Pages.parse_dec; unfold channel in Q; lia). congruence.
Qed.
Lemma in_text ch : channel ch -> midi_in (JNum (inject_Z (ch - 1))) = Some [ch - 1] /\ midi_out (JNum (inject_Z (ch - 1))) = Some (ch - 1).
Proof.
  intros P. unfold midi_in, midi_out, inject_Z, channel in *. replace (0 <=? ch - 1) with true by (symmetry; apply Z.leb_le; lia).
  replace (ch - 1 <=? 15) with true by (symmetry; apply Z.leb_le; lia). split; reflexivity.
Qed.
(* What the emulator gets *)
Lemma connected v ops : Forall (sensible v) ops -> exists l c, connect (comm_get v (crun v ops)) = Some (l, c - 1) /\ channel c /\ last_out ops = text c /\
  ((last_in ops = "All" /\ l = map Z.of_nat (seq 0 16)) \/ exists i, channel i /\ last_in ops = text i /\ l = [i - 1]).
Proof.
  intros F. destruct (stored v ops F) as (A & B & C & c & P & E). unfold connect.
  assert (O : midi_out (match field "outChannel" (comm_get v (crun v ops)) with Some x => x | None => JNum 0 end) = Some (c - 1)).
  { destruct B as [B|[B B2]]; rewrite B.
    - rewrite E, value_text by exact P. apply in_text. exact P.
    - rewrite B2 in E. assert (c = 1) as -> by (apply text_inj; [exact P|unfold channel; lia|rewrite <- E; reflexivity]). reflexivity. }
  destruct C as [C|(i & I & C)].
  - assert (H : midi_in (match field "inChannel" (comm_get v (crun v ops)) with Some x => x | None => JNull end) = Some (map Z.of_nat (seq 0 16))).
    { destruct A as [A|[A _]]; rewrite A; [rewrite C|]; reflexivity. }
    rewrite H, O. eexists _, c. split; [reflexivity|]. repeat split; try assumption; try apply P. left. auto.
  - assert (H : midi_in (match field "inChannel" (comm_get v (crun v ops)) with Some x => x | None => JNull end) = Some [i - 1]).
    { destruct A as [A|[A A2]]; rewrite A.
      - rewrite C, value_text by exact I. apply in_text. exact I.
      - exfalso. pose proof (text_all i I) as T. rewrite <- C, A2 in T. discriminate. }
    rewrite H, O. eexists _, c. split; [reflexivity|]. repeat split; try assumption; try apply P. right. exists i. auto.
Qed.

(* After any history in which channels were typed only, the emulator starts, and hears exactly the channel typed last, or all of them. *)
Theorem C114_hears : forall version ops, Forall (sensible version) ops -> starts version (crun version ops) /\
  forall ch, channel ch -> (hears version (crun version ops) ch <-> last_in ops = "All" \/ last_in ops = text ch).
Proof.
  intros v ops F. destruct (connected v ops F) as (l & c & E & P & O & H). unfold starts, hears. rewrite E. split; [discriminate|]. intros ch Q. split.
  - intros (l' & o & X & Y). injection X as <- _. destruct H as [[H _]|(i & I & H & ->)]; [auto|right]. unfold channel_ok in Y. cbn in Y. rewrite orb_false_r in Y.
    apply Z.eqb_eq in Y. rewrite H. f_equal. lia.
  - intros A. exists l, (c - 1). split; [reflexivity|]. unfold channel_ok. apply existsb_exists. exists (ch - 1). split; [|apply Z.eqb_refl].
    destruct H as [[H ->]|(i & I & H & ->)].
    + apply in_map_iff. exists (Z.to_nat (ch - 1)). unfold channel in Q. rewrite in_seq. lia.
    + destruct A as [A|A]; [exfalso; pose proof (text_all i I) as T; rewrite <- H, A in T; discriminate|].
      rewrite H in A. apply text_inj in A; [subst; left; reflexivity|exact I|exact Q].
Qed.
Print Assumptions C114_hears.

(* All it sends is sent on the output channel typed last: the channel of the message does not matter. *)
Theorem C114_sends : forall version ops ch, Forall (sensible version) ops -> channel ch -> last_out ops = text ch ->
  (forall any control value, sends version (crun version ops) (WCC any control value) [176 + (ch - 1); control; value]) /\
  (forall any program, sends version (crun version ops) (WPC any program) [192 + (ch - 1); program]).
Proof.
  intros v ops ch F Q L. destruct (connected v ops F) as (l & c & E & P & O & _). rewrite O in L. apply text_inj in L; [subst c|exact P|exact Q].
  unfold channel in Q. split; intros; exists l, (ch - 1); (split; [exact E|]); cbn [device_send encode]; rewrite Z.mod_small by lia; reflexivity.
Qed.
Print Assumptions C114_sends.

(* The dialog shows what was typed last. *)
Theorem C114_shown : forall version ops, Forall (sensible version) ops ->
  field_in (comm_get version (crun version ops)) = last_in ops /\ field_out (comm_get version (crun version ops)) = last_out ops.
Proof.
  intros v ops F. destruct (stored v ops F) as (A & B & C & c & P & E). unfold field_in, field_out, comm_attribute. split.
  - destruct A as [->|[-> ->]]; [|reflexivity]. destruct C as [->|(i & I & ->)]; [reflexivity|]. rewrite value_text by exact I. unfold inject_Z, text, dec. do 2 f_equal. lia.
  - destruct B as [->|[-> ->]]; [|reflexivity]. rewrite E, value_text by exact P. unfold inject_Z, text, dec. do 2 f_equal. lia.
Qed.
Print Assumptions C114_shown.

(* Channels and the options of config.py are apart: choosing channels, and resetting them, changes no option. *)
Theorem C114_apart : forall version ops o, (forall s, o <> Else s) -> forall p, shown version (cstep version (crun version ops) o) p = shown version (crun version ops) p.
Proof.
  intros v ops o N p. unfold shown, config_get.
  assert (H : local_get (SETTINGS v) "config.py" (cstep v (crun v ops) o) = local_get (SETTINGS v) "config.py" (crun v ops)); [|rewrite H; reflexivity].
  destruct o; cbn [cstep]; unfold comm_set_attribute, comm_set; try (rewrite local_get_set, String.eqb_refl; reflexivity). exfalso. exact (N _ eq_refl).
Qed.
Print Assumptions C114_apart.

(* Other texts: any other number keeps the emulator from starting, until the field is changed again. *)
Theorem C114_range : forall version ops t n, parse_int t = Some n -> ~ channel n -> t <> "All" ->
  ~ starts version (crun version (ops ++ [TypeIn t])) /\ ~ starts version (crun version (ops ++ [TypeOut t])).
Proof.
  intros v ops t n E N A.
  assert (V : channel_value t = JNum (inject_Z (n - 1))) by (unfold channel_value; apply String.eqb_neq in A; rewrite A, E; reflexivity).
  assert (R : (0 <=? n - 1) && (n - 1 <=? 15) = false).
  { unfold channel in N. destruct (Z.leb_spec 0 (n - 1)), (Z.leb_spec (n - 1) 15); try reflexivity. exfalso. apply N. lia. }
  unfold starts. rewrite !crun_snoc. cbn [cstep]. unfold comm_set_attribute. rewrite !get_set. unfold connect. rewrite !field_put. cbn [String.eqb Ascii.eqb Bool.eqb].
  rewrite V. unfold midi_in, midi_out, inject_Z. rewrite R. split; intros H; apply H; [|destruct (match _ with JNull => _ | _ => _ end)]; reflexivity.
Qed.
Print Assumptions C114_range.

(* The full claim fails. The emulator does not start with every text the dialog takes. *)
Theorem C114_starts_refuted : ~ (forall version ops, starts version (crun version ops)).
Proof. intros H. apply (H "2.4.5" [TypeIn "17"]). vm_compute. reflexivity. Qed.
(* All for the output is then shown as channel 1, but the emulator does not start. *)
Theorem C114_all_refuted : ~ (forall version ops ch, field_out (comm_get version (crun version ops)) = text ch -> channel ch -> starts version (crun version ops)).
Proof. intros H. apply (H "2.4.5" [TypeOut "All"] 1); [reflexivity|unfold channel; lia|vm_compute; reflexivity]. Qed.
(* A text which is no number is taken for All. *)
Theorem C114_text_refuted : ~ (forall version ops t ch, channel ch -> hears version (crun version (ops ++ [TypeIn t])) ch -> t = "All" \/ t = text ch).
Proof.
  intros H. destruct (H "2.4.5" [] "one" 1) as [E|E]; [unfold channel; lia| |discriminate|discriminate]. exists (map Z.of_nat (seq 0 16)), 0. split; vm_compute; reflexivity.
Qed.
Print Assumptions C114_starts_refuted.
Print Assumptions C114_all_refuted.
Print Assumptions C114_text_refuted.

Example ex_channels :
  let ops := [TypeIn "3"; TypeOut "16"; Else (SNumber "updateInterval" (Some 100%Q)); Debug true; TypeIn "All"; TypeIn "4"] in
  Forall (sensible "2.4.5") ops /\ last_in ops = text 4 /\ last_out ops = text 16 /\ connect (comm_get "2.4.5" (crun "2.4.5" ops)) = Some ([3], 15) /\
  field_in (comm_get "2.4.5" (crun "2.4.5" ops)) = "4" /\ connect (comm_get "2.4.5" (crun "2.4.5" (ops ++ [ResetComm]))) = Some (map Z.of_nat (seq 0 16), 0).
Proof.
  cbn zeta. split; [|vm_compute; repeat split; reflexivity]. assert (C : forall c, 1 <= c <= 16 -> channel c) by (intros c P; exact P).
  apply Forall_cons; [right; exists 3; split; [apply C; lia|reflexivity]|]. apply Forall_cons; [exists 16; split; [apply C; lia|reflexivity]|]. apply Forall_cons; [exact I|].
  apply Forall_cons; [exact I|]. apply Forall_cons; [left; reflexivity|]. apply Forall_cons; [right; exists 4; split; [apply C; lia|reflexivity]|]. constructor.
Qed.
