(* Bits, numbers, texts and checksum of the MIDI bridge. *)
From Verif.Lib Require Import Base.
From Verif.Model Require Import Midi Bridge.
From Verif.Spec Require Import Bridge.

(* ---- bits ---- *)
Lemma bits_length w b : length (bits w b) = w. Proof. induction w; cbn; auto. Qed.
Lemma bits_value_bits w : forall b, 0 <= b < 2 ^ Z.of_nat w -> bits_value w (bits w b) = b.
Proof.
  assert (forall w b, 0 <= b -> bits_value w (bits w b) = b mod 2 ^ Z.of_nat w) as H.
  { clear. induction w as [|w IH]; intros b Hb; cbn [bits bits_value]; [rewrite Z.mod_1_r; reflexivity|]. rewrite IH by exact Hb.
    rewrite Nat2Z.inj_succ, Z.pow_succ_r by lia. rewrite Z.testbit_eqb by lia. pose proof (Z.pow_pos_nonneg 2 (Z.of_nat w) ltac:(lia) ltac:(lia)) as Hp.
    rewrite (Z.mul_comm 2), Z.rem_mul_r by lia. pose proof (Z.mod_pos_bound (b / 2 ^ Z.of_nat w) 2 ltac:(lia)).
    destruct ((b / 2 ^ Z.of_nat w) mod 2 =? 1) eqn:E; [apply Z.eqb_eq in E; rewrite E; lia|]. apply Z.eqb_neq in E. replace ((b / 2 ^ Z.of_nat w) mod 2) with 0 by lia. lia. }
  intros b Hb. rewrite H by lia. apply Z.mod_small. exact Hb.
Qed.
Lemma bits_value_range w : forall l, 0 <= bits_value w l < 2 ^ Z.of_nat w.
Proof.
  induction w as [|w IH]; intros l; [cbn; lia|]. cbn [bits_value]. rewrite Nat2Z.inj_succ, Z.pow_succ_r by lia. pose proof (Z.pow_pos_nonneg 2 (Z.of_nat w) ltac:(lia) ltac:(lia)).
  destruct l as [|x l]; [lia|]. specialize (IH l). destruct x; lia.
Qed.
Lemma bits_ext w b c : (forall k, 0 <= k < Z.of_nat w -> Z.testbit b k = Z.testbit c k) -> bits w b = bits w c.
Proof. induction w as [|w IH]; intros H; [reflexivity|]. cbn [bits]. rewrite H by lia. f_equal. apply IH. intros k Hk. apply H. lia. Qed.
Lemma bits_of_value w : forall l, (length l <= w)%nat -> bits w (bits_value w l) = l ++ repeat false (w - length l).
Proof.
  induction w as [|w IH]; intros l Hl; [destruct l; [reflexivity|cbn in Hl; lia]|]. cbn [bits bits_value]. destruct l as [|x l].
  - rewrite Z.testbit_0_l. cbn [length app Nat.sub repeat]. f_equal. specialize (IH [] ltac:(cbn; lia)). rewrite Nat.sub_0_r in IH. assert (bits_value w [] = 0) as E by (destruct w; reflexivity). rewrite E in IH. exact IH.
  - cbn [length] in *. pose proof (bits_value_range w l) as Hr. pose proof (Z.pow_pos_nonneg 2 (Z.of_nat w) ltac:(lia) ltac:(lia)) as Hp.
    assert (Z.testbit ((if x then 2 ^ Z.of_nat w else 0) + bits_value w l) (Z.of_nat w) = x) as ->.
    { rewrite Z.testbit_eqb by lia. destruct x.
      - replace (2 ^ Z.of_nat w + bits_value w l) with (bits_value w l + 1 * 2 ^ Z.of_nat w) by lia. rewrite Z.div_add by lia. rewrite Z.div_small by lia. reflexivity.
      - rewrite Z.add_0_l, Z.div_small by lia. reflexivity. }
    cbn [app]. f_equal. replace (S w - S (length l))%nat with (w - length l)%nat by lia. rewrite <- IH by lia. apply bits_ext. intros k Hk. destruct x; [|reflexivity].
    rewrite <- (Z.mod_pow2_bits_low (2 ^ Z.of_nat w + bits_value w l) (Z.of_nat w) k) by lia. replace (2 ^ Z.of_nat w + bits_value w l) with (bits_value w l + 1 * 2 ^ Z.of_nat w) by lia.
    rewrite Z.mod_add by lia. rewrite Z.mod_small by lia. reflexivity.
Qed.

(* the bits of the groups are the input, filled up with zeros *)
Lemma regroup_bits w inp : forall buf, (0 < w)%nat -> (length buf < w)%nat ->
  exists k, (k < w)%nat /\ flat_map (bits w) (regroup w true inp buf) = buf ++ inp ++ repeat false k.
Proof.
  induction inp as [|x inp IH]; intros buf Hw Hb; cbn [regroup].
  - destruct buf as [|y buf]; cbn [andb negb].
    + exists 0%nat. split; [exact Hw|reflexivity].
    + exists (w - length (y :: buf))%nat. split; [cbn in *; lia|]. cbn [flat_map]. rewrite app_nil_r, bits_of_value by lia. reflexivity.
  - rewrite app_length. cbn [length]. destruct (Nat.eqb (length buf + 1) w) eqn:E.
    + apply Nat.eqb_eq in E. destruct (IH [] Hw ltac:(cbn; lia)) as (k & Hk & Hf). exists k. split; [exact Hk|]. cbn [flat_map]. rewrite Hf.
      rewrite bits_of_value by (rewrite app_length; cbn; lia). rewrite app_length. cbn [length]. replace (w - (length buf + 1))%nat with 0%nat by lia. cbn [repeat app]. rewrite app_nil_r, <- app_assoc. reflexivity.
    + apply Nat.eqb_neq in E. destruct (IH (buf ++ [x]) Hw ltac:(rewrite app_length; cbn; lia)) as (k & Hk & Hf). exists k. split; [exact Hk|]. rewrite Hf, <- app_assoc. reflexivity.
Qed.
Lemma regroup_range w left inp : forall buf, Forall (fun x => 0 <= x < 2 ^ Z.of_nat w) (regroup w left inp buf).
Proof.
  induction inp as [|x inp IH]; intros buf; cbn [regroup].
  - destruct (left && _); repeat constructor; apply bits_value_range.
  - case_if; [constructor; [apply bits_value_range|apply IH]|apply IH].
Qed.
Lemma regroup_fill w k : (k < w)%nat -> forall left buf, (length buf + k < w)%nat -> left = false -> regroup w left (repeat false k) buf = [].
Proof.
  intros Hk left buf Hb ->. clear Hk. revert buf Hb. induction k as [|k IH]; intros buf Hb; [reflexivity|]. cbn [repeat regroup]. rewrite app_length. cbn [length].
  assert (Nat.eqb (length buf + 1) w = false) as -> by (apply Nat.eqb_neq; lia). apply IH. rewrite app_length. cbn. lia.
Qed.
Lemma regroup_group w : forall g buf r left, (length buf + length g = w)%nat -> (0 < length g)%nat -> regroup w left (g ++ r) buf = bits_value w (buf ++ g) :: regroup w left r [].
Proof.
  induction g as [|x g IH]; intros buf r left Hl Hp; [cbn in Hp; lia|]. cbn [app regroup]. rewrite app_length. cbn [length] in *. destruct g as [|y g].
  - cbn [length] in *. assert (Nat.eqb (length buf + 1) w = true) as -> by (apply Nat.eqb_eq; lia). reflexivity.
  - cbn [length] in *. assert (Nat.eqb (length buf + 1) w = false) as -> by (apply Nat.eqb_neq; lia). rewrite IH by (rewrite ?app_length; cbn [length]; lia). rewrite <- app_assoc. reflexivity.
Qed.
Lemma regroup_back w d z : (0 < w)%nat -> Forall (fun x => 0 <= x < 2 ^ Z.of_nat w) d -> (z < w)%nat -> regroup w false (flat_map (bits w) d ++ repeat false z) [] = d.
Proof.
  intros Hw Hd Hz. induction Hd as [|b d Hb Hd IH]; cbn [flat_map app].
  - apply regroup_fill; [exact Hz|cbn; lia|reflexivity].
  - rewrite <- app_assoc, regroup_group by (rewrite ?bits_length; cbn; lia). cbn [app]. rewrite bits_value_bits by exact Hb. f_equal. exact IH.
Qed.
Lemma unpack_pack d : eight d -> unpack (pack d) = d.
Proof.
  intros Hd. unfold unpack, pack. destruct (regroup_bits 7 (flat_map (bits 8) d) [] ltac:(lia) ltac:(cbn; lia)) as (k & Hk & Hf). rewrite Hf. cbn [app]. apply (regroup_back 8); [lia|exact Hd|lia].
Qed.
Lemma pack_seven d : seven (pack d). Proof. apply (regroup_range 7). Qed.
Lemma unpack_eight d : eight (unpack d). Proof. apply (regroup_range 8). Qed.

Lemma regroup_length w left inp : forall buf, (0 < w)%nat -> (length buf < w)%nat -> left = true ->
  Z.of_nat (length (regroup w left inp buf)) = (Z.of_nat (length buf + length inp) + Z.of_nat w - 1) / Z.of_nat w.
Proof.
  intros buf Hw Hb ->. revert buf Hb. induction inp as [|x inp IH]; intros buf Hb; cbn [regroup].
  - destruct buf as [|y buf]; cbn [andb negb length]; [symmetry; apply Z.div_small; lia|]. cbn [length] in Hb. apply (Z.div_unique _ _ _ (Z.of_nat (length buf))); lia.
  - rewrite app_length. cbn [length]. destruct (Nat.eqb (length buf + 1) w) eqn:E.
    + apply Nat.eqb_eq in E. cbn [length]. specialize (IH [] ltac:(cbn; lia)). cbn [length] in IH. rewrite Nat2Z.inj_succ, IH.
      replace (Z.of_nat (length buf + S (length inp)) + Z.of_nat w - 1) with (Z.of_nat (0 + length inp) + Z.of_nat w - 1 + 1 * Z.of_nat w) by lia. rewrite Z.div_add by lia. lia.
    + apply Nat.eqb_neq in E. rewrite IH by (rewrite app_length; cbn; lia). rewrite app_length. cbn [length]. f_equal. lia.
Qed.
Lemma flat_bits_length w d : length (flat_map (bits w) d) = (w * length d)%nat.
Proof. induction d as [|b d IH]; cbn [flat_map length]; [lia|]. rewrite app_length, bits_length, IH. lia. Qed.
Lemma pack_length d : Z.of_nat (length (pack d)) = (8 * Z.of_nat (length d) + 6) / 7.
Proof. unfold pack. rewrite regroup_length by (cbn; lia || reflexivity). rewrite flat_bits_length. cbn [length]. f_equal. lia. Qed.

(* ---- numbers ---- *)
Lemma be_bytes_eight n x : eight (be_bytes n x).
Proof. induction n as [|n IH]; cbn [be_bytes]; constructor; [apply Z.mod_pos_bound; lia|exact IH]. Qed.
Lemma be_bytes_length n x : length (be_bytes n x) = n. Proof. induction n; cbn; auto. Qed.
Lemma number2bytes_seven x n : seven (number2bytes x n). Proof. apply pack_seven. Qed.
Lemma number3_length x : length (number2bytes x 3) = 4%nat.
Proof. pose proof (pack_length (be_bytes 3 x)) as H. rewrite be_bytes_length in H. unfold number2bytes. change ((8 * Z.of_nat 3 + 6) / 7) with 4 in H. lia. Qed.
Lemma number2_length x : length (number2bytes x 2) = 3%nat.
Proof. pose proof (pack_length (be_bytes 2 x)) as H. rewrite be_bytes_length in H. unfold number2bytes. change ((8 * Z.of_nat 2 + 6) / 7) with 3 in H. lia. Qed.
Lemma number_back n x : (n <= 3)%nat -> 0 <= x < 2 ^ (8 * Z.of_nat n) -> bytes2number (number2bytes x n) = x.
Proof.
  intros Hn Hx. unfold bytes2number, number2bytes. rewrite unpack_pack by apply be_bytes_eight.
  destruct n as [|[|[|[|n]]]]; [cbn in *; lia| | | |lia]; cbn [be_bytes be_number length]; unfold js_shl, int32;
    change (2 ^ (8 * Z.of_nat 1)) with 256 in *; change (2 ^ (8 * Z.of_nat 2)) with 65536 in *; change (2 ^ (8 * Z.of_nat 3)) with 16777216 in *; change (2 ^ (8 * Z.of_nat 0)) with 1 in *;
    change (2 ^ ((8 * Z.of_nat 0) mod 32)) with 1; change (2 ^ ((8 * Z.of_nat 1) mod 32)) with 256; change (2 ^ ((8 * Z.of_nat 2) mod 32)) with 65536; lia.
Qed.
Lemma number_inj n x y : (n <= 3)%nat -> 0 <= x < 2 ^ (8 * Z.of_nat n) -> 0 <= y < 2 ^ (8 * Z.of_nat n) -> number2bytes x n = number2bytes y n -> x = y.
Proof. intros Hn Hx Hy E. rewrite <- (number_back n x Hn Hx), <- (number_back n y Hn Hy), E. reflexivity. Qed.

(* ---- texts ---- *)
Definition scalar (c : Z) : Prop := 0 <= c < 55296 \/ 57344 <= c < 1114112.
Ltac by_lia b v := replace b with v by (symmetry; lia).
Lemma dec_cont k cp lo hi b r : lo <= b <= hi -> dec_all (mkDec (S (S k)) cp lo hi) (b :: r) = dec_all (mkDec (S k) (cp * 64 + (b - 128)) 128 191) r.
Proof. intros H. cbn [dec_all]. unfold dec_byte. cbn [d_need d_lo d_hi d_cp]. by_lia ((lo <=? b) && (b <=? hi)) true. reflexivity. Qed.
Lemma dec_last cp lo hi b r : lo <= b <= hi -> dec_all (mkDec 1 cp lo hi) (b :: r) = (cp * 64 + (b - 128)) :: dec_all dec0 r.
Proof. intros H. cbn [dec_all]. unfold dec_byte. cbn [d_need d_lo d_hi d_cp]. by_lia ((lo <=? b) && (b <=? hi)) true. reflexivity. Qed.
Lemma dec_utf8 c r : scalar c -> dec_all dec0 (utf8 c ++ r) = c :: dec_all dec0 r.
Proof.
  intros Hc. unfold scalar in Hc. unfold utf8. destruct (c <=? 127) eqn:E1; [|destruct (c <=? 2047) eqn:E2; [|destruct (c <=? 65535) eqn:E3]]; cbn [app].
  - cbn [dec_all]. unfold dec_byte. cbn [d_need dec0]. unfold dec_first. rewrite E1. reflexivity.
  - cbn [dec_all]. unfold dec_byte at 1. cbn [d_need dec0]. unfold dec_first. by_lia (192 + c / 64 <=? 127) false. by_lia ((194 <=? 192 + c / 64) && (192 + c / 64 <=? 223)) true. cbn [app].
    change (dec_all (mkDec 1 (192 + c / 64 - 192) 128 191) ((128 + c mod 64) :: r) = c :: dec_all dec0 r). rewrite dec_last by lia. f_equal. lia.
  - cbn [dec_all]. unfold dec_byte at 1. cbn [d_need dec0]. unfold dec_first. by_lia (224 + c / 4096 <=? 127) false. by_lia ((194 <=? 224 + c / 4096) && (224 + c / 4096 <=? 223)) false.
    by_lia ((224 <=? 224 + c / 4096) && (224 + c / 4096 <=? 239)) true. cbn [app].
    change (dec_all (mkDec 2 (224 + c / 4096 - 224) (if 224 + c / 4096 =? 224 then 160 else 128) (if 224 + c / 4096 =? 237 then 159 else 191)) (128 + (c / 64) mod 64 :: 128 + c mod 64 :: r) = c :: dec_all dec0 r).
    rewrite dec_cont, dec_last; [f_equal; lia|lia|]. destruct (224 + c / 4096 =? 224) eqn:Ea; destruct (224 + c / 4096 =? 237) eqn:Eb; lia.
  - cbn [dec_all]. unfold dec_byte at 1. cbn [d_need dec0]. unfold dec_first. by_lia (240 + c / 262144 <=? 127) false. by_lia ((194 <=? 240 + c / 262144) && (240 + c / 262144 <=? 223)) false.
    by_lia ((224 <=? 240 + c / 262144) && (240 + c / 262144 <=? 239)) false. by_lia ((240 <=? 240 + c / 262144) && (240 + c / 262144 <=? 244)) true. cbn [app].
    change (dec_all (mkDec 3 (240 + c / 262144 - 240) (if 240 + c / 262144 =? 240 then 144 else 128) (if 240 + c / 262144 =? 244 then 143 else 191)) (128 + (c / 4096) mod 64 :: 128 + (c / 64) mod 64 :: 128 + c mod 64 :: r) = c :: dec_all dec0 r).
    rewrite dec_cont, dec_cont, dec_last; [f_equal; lia|lia|lia|]. destruct (240 + c / 262144 =? 240) eqn:Ea; destruct (240 + c / 262144 =? 244) eqn:Eb; lia.
Qed.
Lemma dec_utf8_all cs : Forall scalar cs -> dec_all dec0 (flat_map utf8 cs) = cs.
Proof. intros H. induction H as [|c cs Hc H IH]; [reflexivity|]. cbn [flat_map]. rewrite dec_utf8 by exact Hc. rewrite IH. reflexivity. Qed.
Lemma scalars_scalar s : units s -> Forall scalar (scalars s).
Proof.
  unfold units. remember (length s) as n eqn:En. assert (length s <= n)%nat as Hn by lia. clear En. revert s Hn. induction n as [|n IH]; intros s Hn Hu.
  - destruct s; [constructor|cbn in Hn; lia].
  - destruct s as [|u s]; [constructor|]. inv Hu. cbn [scalars]. cbn [length] in Hn. unfold high_surrogate, low_surrogate. destruct ((55296 <=? u) && (u <=? 56319)) eqn:E.
    + destruct s as [|v s]; [repeat constructor; unfold scalar; lia|]. inv H2. destruct ((56320 <=? v) && (v <=? 57343)) eqn:E2.
      * constructor; [unfold scalar; lia|]. apply IH; [cbn in Hn; lia|exact H4].
      * constructor; [unfold scalar; lia|]. apply (IH (v :: s)); [cbn in *; lia|constructor; assumption].
    + constructor; [destruct ((56320 <=? u) && (u <=? 57343)) eqn:E2; unfold scalar; lia|]. apply IH; [lia|exact H2].
Qed.
Lemma utf8_eight c : scalar c -> eight (utf8 c).
Proof. intros Hc. unfold scalar in Hc. unfold utf8. repeat case_if; repeat constructor; lia. Qed.
Lemma encode_eight s : units s -> eight (encode s).
Proof.
  intros Hu. unfold encode. pose proof (scalars_scalar s Hu) as H. unfold eight. induction H as [|c cs Hc H IH]; [constructor|]. cbn [flat_map]. apply Forall_app. split; [apply utf8_eight; exact Hc|exact IH].
Qed.
Lemma text_back s : units s -> bytes2string (string2bytes s) = flat_map utf16 (strip_mark (scalars s)).
Proof.
  intros Hu. unfold bytes2string, string2bytes. rewrite unpack_pack by (apply encode_eight; exact Hu). unfold decode, encode. rewrite dec_utf8_all by (apply scalars_scalar; exact Hu). reflexivity.
Qed.
Lemma utf16_scalars s : units s -> well_formed s -> flat_map utf16 (scalars s) = s.
Proof.
  intros Hu H. revert Hu. induction H as [|u s Hs H IH|h l s Hh Hl H IH]; intros Hu; [reflexivity| |].
  - inv Hu. cbn [scalars]. unfold high_surrogate, low_surrogate. by_lia ((55296 <=? u) && (u <=? 56319)) false. by_lia ((56320 <=? u) && (u <=? 57343)) false. cbn [flat_map]. rewrite IH by assumption.
    unfold utf16. by_lia (u <=? 65535) true. reflexivity.
  - inv Hu. inv H3. cbn [scalars]. unfold high_surrogate, low_surrogate. by_lia ((55296 <=? h) && (h <=? 56319)) true. by_lia ((56320 <=? l) && (l <=? 57343)) true. cbn [flat_map]. rewrite IH by assumption.
    unfold utf16. by_lia (65536 + (h - 55296) * 1024 + (l - 56320) <=? 65535) false. cbn [app]. f_equal; [lia|]. f_equal. lia.
Qed.
Lemma strip_no_mark s : units s -> no_mark s -> strip_mark (scalars s) = scalars s.
Proof.
  intros Hu Hm. destruct s as [|u s]; [reflexivity|]. cbn [scalars]. inv Hu. unfold no_mark in Hm. cbn [hd_error] in Hm. assert (u <> 65279) as Hne by congruence. unfold high_surrogate, low_surrogate. destruct ((55296 <=? u) && (u <=? 56319)) eqn:E.
  - destruct s as [|v s]; [reflexivity|]. inv H2. destruct ((56320 <=? v) && (v <=? 57343)) eqn:E2; [|reflexivity]. cbn [strip_mark]. by_lia (65536 + (u - 55296) * 1024 + (v - 56320) =? 65279) false. reflexivity.
  - cbn [strip_mark]. destruct ((56320 <=? u) && (u <=? 57343)); [reflexivity|]. by_lia (u =? 65279) false. reflexivity.
Qed.
Lemma text_same s : units s -> well_formed s -> no_mark s -> bytes2string (string2bytes s) = s.
Proof. intros Hu Hw Hm. rewrite text_back, strip_no_mark, utf16_scalars by assumption. reflexivity. Qed.

(* ---- the checksum ---- *)
(* the register's difference between two inputs depends on the difference of the inputs only *)
Definition reg (c : Z) : Prop := 0 <= c < 65536.
Lemma lxor_range n a b : 0 <= n -> 0 <= a < 2 ^ n -> 0 <= b < 2 ^ n -> 0 <= Z.lxor a b < 2 ^ n.
Proof.
  intros Hn Ha Hb. assert (0 <= Z.lxor a b) as H0 by (apply Z.lxor_nonneg; lia). split; [exact H0|]. destruct (Z.eq_dec (Z.lxor a b) 0) as [->|Hne]; [lia|].
  apply Z.log2_lt_pow2; [lia|]. pose proof (Z.log2_lxor a b ltac:(lia) ltac:(lia)) as Hl. assert (n <> 0). { intros ->. change (2 ^ 0) with 1 in *. assert (a = 0) by lia. assert (b = 0) by lia. subst. cbn in Hne. congruence. }
  assert (forall x, 0 <= x < 2 ^ n -> Z.log2 x < n) as Hx. { intros x Hx. destruct (Z.eq_dec x 0) as [->|]; [cbn; lia|]. apply Z.log2_lt_pow2; lia. }
  pose proof (Hx a Ha). pose proof (Hx b Hb). lia.
Qed.
Lemma crc_bit_range c b : reg c -> 0 <= crc_bit c b < 32768.
Proof. intros Hc. unfold reg in Hc. unfold crc_bit. case_if; [|lia]. apply (lxor_range 15); unfold POLY; cbn; lia. Qed.
Lemma half_lxor a b : Z.lxor a b / 2 = Z.lxor (a / 2) (b / 2).
Proof. rewrite <- !Z.div2_div, !Z.div2_spec. apply Z.shiftr_lxor. Qed.
Lemma odd_lxor a b : Z.odd (Z.lxor a b) = xorb (Z.odd a) (Z.odd b).
Proof. rewrite <- !Z.bit0_odd. apply Z.lxor_spec. Qed.
Lemma crc_bit_diff c c' b b' : Z.lxor (crc_bit c b) (crc_bit c' b') = crc_bit (Z.lxor c c') (xorb b b').
Proof.
  unfold crc_bit. rewrite odd_lxor, half_lxor. destruct (Z.odd c), (Z.odd c'), b, b'; cbn [xorb negb]; rewrite ?Z.lxor_assoc; try reflexivity.
  all: rewrite <- ?(Z.lxor_assoc POLY), ?(Z.lxor_comm POLY (c' / 2)), ?Z.lxor_assoc, ?Z.lxor_nilpotent, ?Z.lxor_0_r; reflexivity.
Qed.
Fixpoint xor_bits (l l' : list bool) : list bool := match l, l' with x :: r, y :: r' => xorb x y :: xor_bits r r' | _, _ => [] end.
Lemma crc_bits_diff l : forall l' c c', length l = length l' -> Z.lxor (fold_left crc_bit l c) (fold_left crc_bit l' c') = fold_left crc_bit (xor_bits l l') (Z.lxor c c').
Proof.
  induction l as [|x l IH]; intros [|y l'] c c' H; try discriminate; [reflexivity|]. cbn [fold_left xor_bits]. rewrite IH by (cbn in H; lia). rewrite crc_bit_diff. reflexivity.
Qed.
Lemma crc_bits_range l c : reg c -> reg (fold_left crc_bit l c).
Proof. revert c. induction l as [|x l IH]; intros c H; [exact H|]. cbn [fold_left]. apply IH. pose proof (crc_bit_range c x H). unfold reg. lia. Qed.
Lemma crc_byte_range b c : reg c -> reg (crc_byte c b). Proof. apply crc_bits_range. Qed.
(* zero bits keep a difference *)
Lemma crc_zero_bit c : 0 <= c < 32768 -> crc_bit c false = 0 -> c = 0.
Proof.
  intros Hc. unfold crc_bit. rewrite xorb_false_r. destruct (Z.odd c) eqn:E; [|intros H; pose proof (Zmod_odd c) as Hm; rewrite E in Hm; lia].
  intros H. apply Z.lxor_eq in H. unfold POLY in H. lia.
Qed.
Lemma xor_bits_same l : Forall (fun x => x = false) (xor_bits l l).
Proof. induction l as [|x l IH]; [constructor|]. cbn [xor_bits]. constructor; [apply xorb_nilpotent|exact IH]. Qed.
Lemma crc_zero_bits l : forall c, 0 <= c < 32768 -> Forall (fun x => x = false) l -> fold_left crc_bit l c = 0 -> c = 0.
Proof.
  induction l as [|x l IH]; intros c Hc Hl H; [exact H|]. inv Hl. cbn [fold_left] in H. apply IH in H; [|apply crc_bit_range; unfold reg; lia|assumption]. apply crc_zero_bit; assumption.
Qed.
Lemma crc_same_bytes d : forall c c', 0 <= Z.lxor c c' < 32768 -> fold_left crc_byte d c = fold_left crc_byte d c' -> c = c'.
Proof.
  induction d as [|b d IH]; intros c c' Hr H; [exact H|]. cbn [fold_left] in H. apply IH in H.
  - unfold crc_byte in H. apply Z.lxor_eq. apply (crc_zero_bits (xor_bits (rev (bits 8 b)) (rev (bits 8 b)))); [exact Hr|apply xor_bits_same|]. rewrite <- crc_bits_diff by reflexivity. rewrite H. apply Z.lxor_nilpotent.
  - unfold crc_byte. rewrite crc_bits_diff by reflexivity. assert (forall l x, 0 <= x < 32768 -> 0 <= fold_left crc_bit l x < 32768) as Hb.
    { induction l as [|y l IHl]; intros x Hx; [exact Hx|]. cbn [fold_left]. apply IHl. apply crc_bit_range. unfold reg. lia. }
    apply Hb. exact Hr.
Qed.
(* the differences of two neighbouring bytes, all 16384 of them *)
Definition pair_diff (x y : Z) : Z := crc_byte (crc_byte 0 x) y.
Definition pair_ok (x y : nat) : bool := negb (pair_diff (Z.of_nat x) (Z.of_nat y) =? 0) || ((x =? 0) && (y =? 0))%nat.
Lemma forallb_square (f : nat -> nat -> bool) n m : forallb (fun x => forallb (f x) (seq 0 m)) (seq 0 n) = true -> forall x y, (x < n)%nat -> (y < m)%nat -> f x y = true.
Proof.
  intros H x y Hx Hy. rewrite forallb_forall in H. specialize (H x ltac:(apply in_seq; lia)). cbv beta in H. rewrite forallb_forall in H. apply H. apply in_seq. lia.
Qed.
Lemma pairs_checked : forallb (fun x => forallb (pair_ok x) (seq 0 128)) (seq 0 128) = true. Proof. vm_compute. reflexivity. Qed.
Lemma pair_ok_all x y : (x < 128)%nat -> (y < 128)%nat -> pair_ok x y = true.
Proof. exact (forallb_square pair_ok 128 128 pairs_checked x y). Qed.
Lemma pair_ok_spec x y : pair_ok x y = true -> pair_diff (Z.of_nat x) (Z.of_nat y) = 0 -> x = 0%nat /\ y = 0%nat.
Proof.
  unfold pair_ok. intros Hc H. apply orb_true_iff in Hc. destruct Hc as [Hc|Hc]; [apply negb_true_iff, Z.eqb_neq in Hc; contradiction|].
  apply andb_true_iff in Hc. destruct Hc as [A B]. apply Nat.eqb_eq in A, B. auto.
Qed.
Lemma pair_nonzero x y : 0 <= x < 128 -> 0 <= y < 128 -> pair_diff x y = 0 -> x = 0 /\ y = 0.
Proof.
  intros Hx Hy H. destruct (pair_ok_spec (Z.to_nat x) (Z.to_nat y)) as [A B].
  - apply pair_ok_all; clear H; lia.
  - rewrite !Z2Nat.id by lia. exact H.
  - clear H. lia.
Qed.
Lemma bits_lxor w x y : bits w (Z.lxor x y) = xor_bits (bits w x) (bits w y).
Proof. induction w as [|w IH]; [reflexivity|]. cbn [bits xor_bits]. rewrite Z.lxor_spec, IH. reflexivity. Qed.
Lemma xor_bits_app l1 : forall l1' l2 l2', length l1 = length l1' -> xor_bits (l1 ++ l2) (l1' ++ l2') = xor_bits l1 l1' ++ xor_bits l2 l2'.
Proof. induction l1 as [|x l1 IH]; intros [|y l1'] l2 l2' H; try discriminate; [reflexivity|]. cbn [app xor_bits]. rewrite IH by (cbn in H; lia). reflexivity. Qed.
Lemma xor_bits_rev l : forall l', length l = length l' -> xor_bits (rev l) (rev l') = rev (xor_bits l l').
Proof.
  induction l as [|x l IH]; intros [|y l'] H; try discriminate; [reflexivity|]. cbn [rev xor_bits]. rewrite xor_bits_app by (rewrite !rev_length; cbn in H; lia). rewrite IH by (cbn in H; lia). reflexivity.
Qed.
Lemma crc_byte_diff c c' x y : Z.lxor (crc_byte c x) (crc_byte c' y) = crc_byte (Z.lxor c c') (Z.lxor x y).
Proof. unfold crc_byte. rewrite crc_bits_diff by (rewrite !rev_length, !bits_length; reflexivity). rewrite xor_bits_rev by (rewrite !bits_length; reflexivity). rewrite bits_lxor. reflexivity. Qed.
Lemma crc_byte_small c b : 0 <= c < 32768 -> 0 <= crc_byte c b < 32768.
Proof.
  unfold crc_byte. generalize (rev (bits 8 b)). intros l. revert c. induction l as [|y l IHl]; intros x Hx; [exact Hx|]. cbn [fold_left]. apply IHl. apply crc_bit_range. unfold reg. lia.
Qed.
Lemma reg_pair c x y x' y' b : 0 <= x < 128 -> 0 <= y < 128 -> 0 <= x' < 128 -> 0 <= y' < 128 ->
  fold_left crc_byte b (crc_byte (crc_byte c x) y) = fold_left crc_byte b (crc_byte (crc_byte c x') y') -> x = x' /\ y = y'.
Proof.
  intros Hx Hy Hx' Hy' H.
  pose proof (crc_byte_diff (crc_byte c x) (crc_byte c x') y y') as Hd. rewrite (crc_byte_diff c c x x'), Z.lxor_nilpotent in Hd.
  pose proof (lxor_range 7 x x' ltac:(lia) ltac:(cbn; lia) ltac:(cbn; lia)) as R1. pose proof (lxor_range 7 y y' ltac:(lia) ltac:(cbn; lia) ltac:(cbn; lia)) as R2. change (2 ^ 7) with 128 in *.
  apply crc_same_bytes in H; [|rewrite Hd; apply crc_byte_small, crc_byte_small; lia].
  rewrite H, Z.lxor_nilpotent in Hd. symmetry in Hd. apply (pair_nonzero _ _ R1 R2) in Hd. destruct Hd as [A B]. apply Z.lxor_eq in A, B. auto.
Qed.
Lemma crc_reg_pair a b x y x' y' : 0 <= x < 128 -> 0 <= y < 128 -> 0 <= x' < 128 -> 0 <= y' < 128 ->
  fold_left crc_byte (a ++ [x; y] ++ b) 65535 = fold_left crc_byte (a ++ [x'; y'] ++ b) 65535 -> x = x' /\ y = y'.
Proof.
  intros Hx Hy Hx' Hy'. rewrite !fold_left_app. generalize (fold_left crc_byte a 65535). intros c. cbn [fold_left]. apply reg_pair; assumption.
Qed.
Lemma crc_reg_one a b x x' : 0 <= x < 128 -> 0 <= x' < 128 -> fold_left crc_byte (a ++ [x] ++ b) 65535 = fold_left crc_byte (a ++ [x'] ++ b) 65535 -> x = x'.
Proof.
  intros Hx Hx'. rewrite !fold_left_app. generalize (fold_left crc_byte a 65535). intros c. cbn [fold_left]. intros H.
  pose proof (crc_byte_diff c c x x') as Hd. rewrite Z.lxor_nilpotent in Hd. pose proof (lxor_range 7 x x' ltac:(lia) ltac:(cbn; lia) ltac:(cbn; lia)) as R1. change (2 ^ 7) with 128 in *.
  apply crc_same_bytes in H; [|rewrite Hd; apply crc_byte_small; lia]. rewrite H, Z.lxor_nilpotent in Hd. symmetry in Hd.
  assert (pair_diff 0 (Z.lxor x x') = 0) as H0 by (unfold pair_diff; change (crc_byte 0 0) with 0; exact Hd). apply (pair_nonzero 0 _ ltac:(lia) R1) in H0. destruct H0 as [_ B]. apply Z.lxor_eq in B. exact B.
Qed.
(* the final steps lose nothing *)
Definition finish (r : Z) : Z := let c := Z.land (Z.lnot r) 65535 in Z.land (Z.lor (c * 256) (Z.land (c / 256) 255)) 65535.
Lemma finish_val r : reg r -> finish r = (65535 - r) mod 256 * 256 + (65535 - r) / 256.
Proof.
  intros Hr. unfold reg in Hr. unfold finish. change 65535 with (Z.ones 16) at 1 2 3. rewrite !Z.land_ones by lia. unfold Z.lnot. change (2 ^ 16) with 65536.
  assert (Z.pred (- r) mod 65536 = 65535 - r) as -> by lia. set (c := 65535 - r). assert (0 <= c < 65536) as Hc by lia. clearbody c.
  change 255 with (Z.ones 8). rewrite Z.land_ones by lia. change (2 ^ 8) with 256. rewrite (Z.mod_small (c / 256)) by lia.
  assert (Z.lor (c * 256) (c / 256) = c * 256 + c / 256) as ->.
  { change 256 with (2 ^ 8) at 1 3. rewrite <- Z.shiftl_mul_pow2 by lia. rewrite <- Z.lxor_lor, Z.add_nocarry_lxor; try reflexivity.
    all: apply Z.bits_inj'; intros n Hn; rewrite Z.land_spec, Z.bits_0, Z.shiftl_spec by lia; destruct (Z.ltb_spec n 8);
      [rewrite Z.testbit_neg_r by lia; reflexivity|]; rewrite <- (Z.mod_small (c / 256) (2 ^ 8)) by (cbn; lia); rewrite Z.mod_pow2_bits_high by lia; apply andb_false_r. }
  lia.
Qed.
Lemma finish_inj r r' : reg r -> reg r' -> finish r = finish r' -> r = r'.
Proof. intros H H' E. rewrite !finish_val in E by assumption. unfold reg in *. lia. Qed.
Lemma finish_range r : reg r -> 0 <= finish r < 65536. Proof. intros H. rewrite finish_val by exact H. unfold reg in H. lia. Qed.
Lemma crc_reg d c : reg c -> reg (fold_left crc_byte d c).
Proof. revert c. induction d as [|b d IH]; intros c H; [exact H|]. cbn [fold_left]. apply IH, crc_byte_range, H. Qed.
Lemma checksum_reg d d' : checksum d = checksum d' -> fold_left crc_byte d 65535 = fold_left crc_byte d' 65535.
Proof.
  intros H. assert (reg 65535) as R0 by (unfold reg; lia). unfold checksum, crc16 in H. apply number_inj in H; [|lia| |].
  - apply finish_inj; auto using crc_reg.
  - apply finish_range, crc_reg, R0.
  - apply finish_range, crc_reg, R0.
Qed.
Lemma checksum_pair a b x y x' y' : seven [x; y; x'; y'] -> checksum (a ++ [x; y] ++ b) = checksum (a ++ [x'; y'] ++ b) -> x = x' /\ y = y'.
Proof. intros Hs H. inv Hs. inv H3. inv H5. inv H6. apply (crc_reg_pair a b); auto. apply checksum_reg, H. Qed.
Lemma checksum_one a b x x' : seven [x; x'] -> checksum (a ++ [x] ++ b) = checksum (a ++ [x'] ++ b) -> x = x'.
Proof. intros Hs H. inv Hs. inv H3. apply (crc_reg_one a b); auto. apply checksum_reg, H. Qed.
Lemma checksum_length d : length (checksum d) = 3%nat. Proof. apply number2_length. Qed.
Lemma checksum_seven d : seven (checksum d). Proof. apply number2bytes_seven. Qed.
