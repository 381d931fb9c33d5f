From Coq Require Import String.
From Verif.Lib Require Import Base.
From Verif.Model Require Import BinaryCb Effects.
From Verif.Spec Require Import Effects.
Open Scope string_scope. Open Scope Z_scope.

Lemma index_total {A} (l : list A) i : 0 <= i < Z.of_nat (length l) -> exists x, index l i = Some x /\ In x l.
Proof.
  intros H. unfold index. destruct (i <? 0) eqn:E; [lia|]. destruct (nth_error l (Z.to_nat i)) as [x|] eqn:N.
  - exists x. split; auto. eapply nth_error_In; eauto.
  - apply nth_error_None in N. lia.
Qed.

Definition check (t : Z) (f : Z * Z * string * rgb) : bool :=
  let '(lo, hi, n, c) := f in
  implb (between lo t hi)
    (match shown_name t with Some x => String.eqb x n | None => false end &&
     match shown_color t, c with Some (r, g, b), (r', g', b') => (r =? r') && (g =? g') && (b =? b') | None, _ => false end).

Lemma check_all : forallb (fun t => forallb (check (Z.of_nat t)) families) (seq 0 200) = true.
Proof. vm_compute. reflexivity. Qed.

Lemma families_bound lo hi n c : In (lo, hi, n, c) families -> 0 <= lo /\ hi < 200.
Proof. intros H. cbn [families In] in H. repeat (destruct H as [H|H]; [injection H as <- <- <- <-; lia|]). contradiction. Qed.

Lemma family_shown t n c : in_family t n c -> shown_name t = Some n /\ shown_color t = Some c.
Proof.
  intros (lo & hi & H & B). pose proof (families_bound _ _ _ _ H) as Hb. pose proof check_all as K. rewrite forallb_forall in K.
  specialize (K (Z.to_nat t)). rewrite forallb_forall in K. specialize (K ltac:(apply in_seq; lia) _ H). unfold check in K. rewrite Z2Nat.id in K by lia.
  assert (E : between lo t hi = true) by (unfold between; lia). rewrite E in K. cbn [implb] in K. apply andb_true_iff in K. destruct K as (K1 & K2).
  destruct (shown_name t) as [x|]; [|discriminate]. apply String.eqb_eq in K1. subst x. split; auto.
  destruct (shown_color t) as [[[r g] b]|]; [|discriminate]. destruct c as [[r' g'] b']. repeat f_equal; lia.
Qed.

Lemma families_disjoint t n1 c1 n2 c2 : in_family t n1 c1 -> in_family t n2 c2 -> n1 = n2 /\ c1 = c2.
Proof. intros H1 H2. destruct (family_shown _ _ _ H1) as (A & B), (family_shown _ _ _ H2) as (A' & B'). split; congruence. Qed.

Lemma outside t : t < 0 \/ 200 <= t -> get_effect_category t = CATEGORY_NONE /\ ~ has_family t.
Proof.
  intros H. split.
  - unfold get_effect_category, between. repeat match goal with |- (if ?b then _ else _) = _ => replace b with false by lia; cbv iota end. reflexivity.
  - intros (n & c & lo & hi & Hin & B). pose proof (families_bound _ _ _ _ Hin). lia.
Qed.

Lemma some_family : forallb (fun t => existsb (fun '(lo, hi, n, c) => between lo (Z.of_nat t) hi) families || (get_effect_category (Z.of_nat t) =? 0)) (seq 0 200) = true.
Proof. vm_compute. reflexivity. Qed.

Lemma shown t : exists n c, shown_name t = Some n /\ shown_color t = Some c /\
  (in_family t n c \/ (~ has_family t /\ n = "-" /\ c = DEFAULT_LABEL_COLOR)).
Proof.
  assert (D : (t < 0 \/ 200 <= t) \/ 0 <= t < 200) by lia. destruct D as [D|D].
  - destruct (outside t D) as (E & N). exists "-", DEFAULT_LABEL_COLOR. unfold shown_name, shown_color. rewrite E. split; [reflexivity|]. split; [reflexivity|]. auto.
  - pose proof some_family as K. rewrite forallb_forall in K. specialize (K (Z.to_nat t) ltac:(apply in_seq; lia)). cbv beta in K. rewrite Z2Nat.id in K by lia.
    destruct (existsb _ families) eqn:E.
    + apply existsb_exists in E. destruct E as ([[[lo hi] n] c] & Hin & Hb).
      assert (F : in_family t n c) by (exists lo, hi; split; auto; unfold between in Hb; lia).
      destruct (family_shown _ _ _ F). exists n, c. auto.
    + cbn [orb] in K. apply Z.eqb_eq in K. exists "-", DEFAULT_LABEL_COLOR. unfold shown_name, shown_color. rewrite K. split; [reflexivity|]. split; [reflexivity|]. right. split; auto.
      intros (n & c & lo & hi & Hin & B). assert (existsb (fun '(lo, hi, n, c) => between lo t hi) families = true); [|congruence].
      apply existsb_exists. exists (lo, hi, n, c). split; auto. unfold between. lia.
Qed.

Lemma none_iff t : get_effect_category t = CATEGORY_NONE <-> ~ has_family t.
Proof.
  split.
  - intros E (n & c & F). destruct (family_shown _ _ _ F) as (A & _). unfold shown_name in A. rewrite E in A. cbn in A. injection A as <-.
    destruct F as (lo & hi & H & _). cbn [families In] in H. repeat (destruct H as [H|H]; [discriminate|]). contradiction.
  - intros N. destruct (shown t) as (n & c & E1 & _ & [F | (_ & -> & _)]); [exfalso; apply N; exists n, c; auto|].
    unfold shown_name in E1. assert (R : 0 <= get_effect_category t <= 18) by (unfold get_effect_category; repeat case_if; vm_compute; split; discriminate). set (k := get_effect_category t) in *. clearbody k.
    assert (D : k = 0 \/ k = 1 \/ k = 2 \/ k = 3 \/ k = 4 \/ k = 5 \/ k = 6 \/ k = 7 \/ k = 8 \/ k = 9 \/ k = 10 \/ k = 11 \/ k = 12 \/ k = 13 \/ k = 14 \/ k = 15 \/ k = 16 \/ k = 17 \/ k = 18) by lia.
    repeat (destruct D as [-> | D]; [try reflexivity; discriminate|]). subst k. discriminate.
Qed.

(* ---- extended names ---- *)

Lemma names_nodup : NoDup (map fst EFFECT_TYPE_NAMES).
Proof.
  assert (H : forall l : list Z, (fix nd l := match l with [] => true | x :: r => negb (existsb (Z.eqb x) r) && nd r end) l = true -> NoDup l).
  { induction l as [|x l IH]; intros H; [constructor|]. apply andb_true_iff in H. destruct H as (H1 & H2). constructor; auto.
    intros Hin. apply negb_true_iff in H1. assert (existsb (Z.eqb x) l = true); [|congruence]. apply existsb_exists. exists x. split; auto. lia. }
  apply H. vm_compute. reflexivity.
Qed.

Lemma lookup_in l t n : NoDup (map fst l) -> (lookup l t = Some n <-> In (t, n) l).
Proof.
  induction l as [|[k m] l IH]; intros H; cbn [lookup In map fst] in *; [split; [discriminate|contradiction]|]. inversion H as [|? ? H1 H2]; subst.
  destruct (k =? t) eqn:E.
  - apply Z.eqb_eq in E. subst k. split; [intros F; injection F as <-; auto|]. intros [F | F]; [congruence|]. exfalso. apply H1. apply (in_map fst) in F. exact F.
  - rewrite IH by auto. split; auto. intros [F|]; auto. injection F as <- <-. lia.
Qed.
Lemma lookup_none l t : lookup l t = None <-> forall n, ~ In (t, n) l.
Proof.
  induction l as [|[k m] l IH]; cbn [lookup In]; [split; auto; intros _ n []|]. destruct (k =? t) eqn:E.
  - apply Z.eqb_eq in E. subst k. split; [discriminate|]. intros H. exfalso. apply (H m). auto.
  - rewrite IH. split; [|intros H n Hn; apply (H n); auto]. intros H n [F | F]; [injection F as <- <-; lia|apply (H n F)].
Qed.

Lemma named_have_family t n : own_name t n -> t <> 0 -> t <> 137 -> get_effect_category t <> CATEGORY_NONE.
Proof.
  intros H H0 H1.
  assert (K : forallb (fun x => (fst x =? 0) || (fst x =? 137) || negb (get_effect_category (fst x) =? CATEGORY_NONE)) EFFECT_TYPE_NAMES = true) by (vm_compute; reflexivity).
  rewrite forallb_forall in K. specialize (K _ H). cbn [fst] in K. lia.
Qed.

Lemma ext_text slot t : get_effect_category_text None slot (Some EFFECT_TYPE_NAMES) (get_effect_category t) (Some t) =
  option_map (fun n => match slot with Some s => String.append s (String.append " " n) | None => n end)
    (match lookup EFFECT_TYPE_NAMES t with Some n => Some n | None => shown_name t end).
Proof.
  unfold get_effect_category_text, shown_name. destruct (lookup EFFECT_TYPE_NAMES t) as [n|]; cbn [option_map]; [destruct slot; reflexivity|].
  destruct (index CATEGORY_NAMES (get_effect_category t)); destruct slot; reflexivity.
Qed.

Lemma text_shown slot t : exists n, (own_name t n \/ ((forall m, ~ own_name t m) /\ shown_name t = Some n)) /\
  get_effect_category_text None slot (Some EFFECT_TYPE_NAMES) (get_effect_category t) (Some t) = Some (match slot with Some s => String.append s (String.append " " n) | None => n end).
Proof.
  rewrite ext_text. destruct (lookup EFFECT_TYPE_NAMES t) as [n|] eqn:E.
  - exists n. split; [left; apply lookup_in; auto; apply names_nodup|]. destruct slot; reflexivity.
  - destruct (shown t) as (n & c & En & _). exists n. split; [right; split; auto; apply lookup_none; auto|]. rewrite En. destruct slot; reflexivity.
Qed.
