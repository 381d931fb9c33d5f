(* C118: the mappings offered for a parameter. *)
From Coq Require Import String Ascii Lia Permutation Sorted.
From Verif.Lib Require Import Base.
From Verif.Model Require Import Label Choices.
From Verif.Spec Require Import Choices.
From Verif.Proofs Require Import RigLabel.
Local Open Scope list_scope.
Local Open Scope string_scope.

Lemma app_assoc_s (a b c : string) : append (append a b) c = append a (append b c).
Proof. induction a as [|x a IH]; cbn; [reflexivity|]. f_equal. exact IH. Qed.
Lemma app_inv_s (a b c : string) : append a b = append a c -> b = c.
Proof. induction a as [|x a IH]; cbn; [auto|]. intros H. injection H as H. auto. Qed.
Lemma app_last_s (a b : string) c : append a (String c "") = append b (String c "") -> a = b.
Proof.
  revert b. induction a as [|x a IH]; intros [|y b]; cbn; intros H; [reflexivity| | |]; injection H as H1 H2.
  - destruct b; discriminate.
  - destruct a; discriminate.
  - subst y. f_equal. apply IH. exact H2.
Qed.
Lemma insert_perm x l : Permutation (insert x l) (x :: l).
Proof. induction l as [|y l IH]; cbn; [reflexivity|]. destruct (String.leb x y); [reflexivity|]. rewrite IH. apply perm_swap. Qed.
Lemma sort_perm l : Permutation (sort l) l.
Proof. induction l as [|x l IH]; cbn; [reflexivity|]. rewrite insert_perm. constructor. exact IH. Qed.
Lemma sort_sorted l : Sorted (fun a b => String.leb a b = true) (sort l).
Proof.
  induction l as [|x l IH]; [constructor|]. change (sort (x :: l)) with (insert x (sort l)). induction (sort l) as [|y r IHr]; cbn; [repeat constructor|]. pose proof IH as IH0. apply Sorted_inv in IH. destruct IH as [S H]. destruct (String.leb x y) eqn:E; [constructor; [exact IH0|constructor; exact E]|].
  assert (yx : String.leb y x = true) by (destruct (String.leb_total x y) as [X|X]; [congruence|exact X]).
  constructor; [apply IHr; exact S|]. destruct r as [|z r]; cbn; [constructor; exact yx|]. destruct (String.leb x z); constructor; [exact yx|]. inversion H; assumption.
Qed.
Lemma numbers_in min max x : In x (numbers min max) <-> exists k, (min <= k <= max)%Z /\ x = dec k.
Proof.
  unfold numbers. rewrite in_map_iff. split.
  - intros (k & <- & I). apply in_seq in I. exists (min + Z.of_nat k)%Z. split; [lia|reflexivity].
  - intros (k & B & ->). exists (Z.to_nat (k - min)). split; [f_equal; lia|]. apply in_seq. lia.
Qed.
Lemma numbers_once min max : NoDup (numbers min max).
Proof. unfold numbers. apply FinFun.Injective_map_NoDup; [|apply seq_NoDup]. intros a b E. apply dec_inj in E. lia. Qed.
Definition list_of (p : param) : option (list string) := match p_range p with Some r => get_values r | None => p_values p end.
Lemma list_of_in p l : list_of p = Some l -> forall x, In x l <-> accepts p x.
Proof.
  unfold list_of, accepts. destruct (p_range p) as [r|].
  - unfold get_values. destruct (r_additional r) as [a|].
    + intros H x. injection H as <-. rewrite in_app_iff, numbers_in. split; [intros [I|I]; [right; exists a; auto|left; exact I]|]. intros [I|(l & E & I)]; [right; exact I|left]. injection E as ->. exact I.
    + destruct (100 <? _)%Z; [discriminate|]. intros H x. injection H as <-. rewrite numbers_in. split; [auto|]. intros [I|(l & E & _)]; [exact I|discriminate].
  - intros -> x. split; [intros I; exists l; auto|]. intros (l' & E & I). injection E as ->. exact I.
Qed.
Lemma list_of_once p l : tidy p -> list_of p = Some l -> NoDup l.
Proof.
  unfold list_of, tidy. destruct (p_range p) as [r|]; [|auto]. unfold get_values. destruct (r_additional r) as [a|].
  - intros T H. injection H as <-. destruct (T a eq_refl) as [N D]. clear T. induction a as [|x a IH]; [apply numbers_once|]. cbn. inversion N; subst. constructor.
    + rewrite in_app_iff, numbers_in. intros [I|(k & B & E)]; [contradiction|]. exact (D x k (or_introl eq_refl) B E).
    + apply IH; [assumption|]. intros y k I. apply D. right. exact I.
  - destruct (100 <? _)%Z; [discriminate|]. intros _ H. injection H as <-. apply numbers_once.
Qed.
Lemma variants_in m v : variants m = Some v -> forall x, In x v <-> call m x.
Proof.
  unfold variants. destruct (m_params m) as [|p ps] eqn:M.
  - intros H x. injection H as <-. split; [intros [<-|[]]; apply Call0; exact M|]. intros C. destruct C; [left; reflexivity|congruence|congruence].
  - fold (list_of p). destruct (list_of p) as [l|] eqn:L; [|discriminate]. intros H x. injection H as <-. unfold add_values. rewrite M, in_map_iff. pose proof (list_of_in p l L) as I. split.
    + intros (y & <- & Y). apply I in Y. destruct ps as [|q r]; cbn [length Nat.ltb Nat.leb]; [exact (Call1 m p y M Y)|]. rewrite !app_assoc_s. exact (CallN m p q r y M Y).
    + intros C. destruct C as [E|p' y E Y|p' q r y E Y]; [congruence| |]; rewrite M in E; injection E as <- E; subst ps; exists y; (split; [|apply I; exact Y]); cbn [length Nat.ltb Nat.leb]; rewrite ?app_assoc_s; reflexivity.
Qed.
Lemma collect_in l v : collect l = Some v -> forall x, In x v <-> exists m, In m l /\ call m x.
Proof.
  revert v. induction l as [|m l IH]; intros v H x; cbn in H; [injection H as <-; split; [intros []|intros (m & [] & _)]|].
  destruct (variants m) as [w|] eqn:V; [|discriminate]. destruct (collect l) as [u|]; [|discriminate]. injection H as <-. rewrite in_app_iff, (variants_in m w V), (IH u eq_refl). split.
  - intros [C|(m' & I & C)]; [exists m; split; [left; reflexivity|exact C]|exists m'; split; [right; exact I|exact C]].
  - intros (m' & [<-|I] & C); [left; exact C|right; exists m'; auto].
Qed.

(* Offered are exactly all possible calls of all mappings of all clients, and None where this is allowed. *)
Theorem C118_offered : forall clients none l, generate clients none = Some l ->
  forall x, In x l <-> (none = true /\ x = "None") \/ exists c m, In c clients /\ In m c /\ call m x.
Proof.
  intros clients none l H x. unfold generate in H. destruct (collect (concat clients)) as [v|] eqn:C; [|discriminate]. injection H as <-.
  assert (P : In x (sort ((if none then ["None"] else []) ++ v)%list) <-> In x ((if none then ["None"] else []) ++ v)%list) by (split; apply Permutation_in; [|symmetry]; apply sort_perm).
  rewrite P, in_app_iff, (collect_in _ _ C). split.
  - intros [N|(m & I & K)]; [left; destruct none; [destruct N as [<-|[]]; auto|destruct N]|right]. apply in_concat in I. destruct I as (c & I & J). exists c, m. auto.
  - intros [[-> ->]|(c & m & I & J & K)]; [left; left; reflexivity|right]. exists m. split; [apply in_concat; exists c; auto|exact K].
Qed.
Print Assumptions C118_offered.

(* They are sorted. *)
Theorem C118_sorted : forall clients none l, generate clients none = Some l -> Sorted (fun a b => String.leb a b = true) l.
Proof. intros clients none l H. unfold generate in H. destruct (collect _) as [v|]; [|discriminate]. injection H as <-. apply sort_sorted. Qed.
Print Assumptions C118_sorted.

Lemma cut x y a b : ~ In "("%char (list_ascii_of_string x) -> ~ In "("%char (list_ascii_of_string y) -> append x (String "(" a) = append y (String "(" b) -> x = y /\ a = b.
Proof.
  revert y a b. induction x as [|c x IH]; intros [|d y] a b X Y E; cbn in *.
  - injection E as ->. auto.
  - injection E as <- _. exfalso. apply Y. left. reflexivity.
  - injection E as -> _. exfalso. apply X. left. reflexivity.
  - injection E as -> E. destruct (IH y a b ltac:(tauto) ltac:(tauto) E) as [-> ->]. auto.
Qed.
Lemma call_name m x : call m x -> exists r, x = append (m_name m) (String "(" r).
Proof. intros [| |]; eexists; reflexivity. Qed.
Lemma variants_once m v : (forall p, In p (m_params m) -> tidy p) -> variants m = Some v -> NoDup v.
Proof.
  intros T. unfold variants. destruct (m_params m) as [|p ps] eqn:M; [intros H; injection H as <-; repeat constructor; intros []|]. fold (list_of p). destruct (list_of p) as [l|] eqn:L; [|discriminate].
  intros H. injection H as <-. unfold add_values. apply FinFun.Injective_map_NoDup; [|apply (list_of_once p); [apply T; left; reflexivity|exact L]].
  intros a b E. apply app_inv_s in E. apply app_inv_s in E. apply app_last_s in E. apply app_inv_s in E. exact E.
Qed.
(* Nothing is offered twice. *)
Theorem C118_once : forall clients none l, generate clients none = Some l -> NoDup (map m_name (concat clients)) ->
  (forall c m, In c clients -> In m c -> ~ In "("%char (list_ascii_of_string (m_name m)) /\ forall p, In p (m_params m) -> tidy p) -> NoDup l.
Proof.
  intros clients none l H N T. unfold generate in H. destruct (collect (concat clients)) as [v|] eqn:C; [|discriminate]. injection H as <-.
  apply (Permutation_NoDup (Permutation_sym (sort_perm _))).
  assert (T' : forall m, In m (concat clients) -> ~ In "("%char (list_ascii_of_string (m_name m)) /\ forall p, In p (m_params m) -> tidy p).
  { intros m I. apply in_concat in I. destruct I as (c & I & J). exact (T c m I J). }
  assert (V : NoDup v).
  { clear T. revert v C N T'. induction (concat clients) as [|m ms IH]; intros v C N T; cbn in C; [injection C as <-; constructor|].
    destruct (variants m) as [w|] eqn:W; [|discriminate]. destruct (collect ms) as [u|] eqn:U; [|discriminate]. injection C as <-. cbn in N. inversion N as [|? ? N1 N2]; subst.
    pose proof (variants_once m w (proj2 (T m (or_introl eq_refl))) W) as A. pose proof (IH u eq_refl N2 (fun m' I => T m' (or_intror I))) as B.
    assert (D : forall z, In z w -> ~ In z u).
    { intros z Z1 Z2. apply (variants_in m w W) in Z1. apply (collect_in ms u U) in Z2. destruct Z2 as (m' & I & Z2). apply call_name in Z1, Z2. destruct Z1 as [r1 ->], Z2 as [r2 E].
      apply cut in E; [|apply T; left; reflexivity|apply T; right; exact I]. apply N1. rewrite (proj1 E). apply in_map. exact I. }
    clear - A B D. induction w as [|z w IH]; [exact B|]. cbn. inversion A; subst. constructor; [rewrite in_app_iff; intros [I|I]; [contradiction|exact (D z (or_introl eq_refl) I)]|].
    apply IH; [assumption|]. intros y I. apply D. right. exact I. }
  destruct none; [|exact V]. constructor; [|exact V]. intros I. apply (collect_in _ _ C) in I. destruct I as (m & _ & K).
  apply call_name in K. destruct K as [r E]. assert (X : In "("%char (list_ascii_of_string (append (m_name m) (String "(" r)))) by (clear; induction (m_name m); cbn; auto).
  rewrite <- E in X. cbn in X. intuition discriminate.
Qed.
Print Assumptions C118_once.

Lemma variants_some m : variants m <> None <-> described m.
Proof.
  unfold variants, described. destruct (m_params m) as [|p ps]; [split; [auto|discriminate]|]. destruct (p_range p) as [r|].
  - unfold get_values. destruct (r_additional r) as [a|]; [split; [intros _; left; discriminate|discriminate]|]. destruct (Z.ltb_spec 100 (r_max r - r_min r)) as [X|X]; cbn.
    + split; [congruence|]. intros [Y|Y]; [congruence|lia].
    + split; [auto|discriminate].
  - destruct (p_values p); cbn; split; congruence.
Qed.
(* There is a list exactly if the metadata describes the first parameters of all mappings. *)
Theorem C118_available_partial : forall clients none, generate clients none <> None <-> (forall c m, In c clients -> In m c -> described m).
Proof.
  intros clients none. assert (A : generate clients none <> None <-> collect (concat clients) <> None) by (unfold generate; destruct (collect (concat clients)); cbn; split; congruence).
  rewrite A. clear A. transitivity (forall m, In m (concat clients) -> described m).
  - induction (concat clients) as [|m ms IH]; cbn [collect]; [split; [intros _ m []|discriminate]|]. pose proof (variants_some m) as V. destruct (variants m) as [w|].
    + assert (B : option_map (fun u => w ++ u)%list (collect ms) <> None <-> collect ms <> None) by (destruct (collect ms); cbn; split; congruence). rewrite B, IH. split.
      * intros H m' [<-|I]; [apply V; discriminate|exact (H m' I)].
      * intros H m' I. apply H. right. exact I.
    + split; [congruence|]. intros H. apply V. apply H. left. reflexivity.
  - split; [intros H c m I J; apply H; apply in_concat; exists c; auto|]. intros H m I. apply in_concat in I. destruct I as (c & I & J). exact (H c m I J).
Qed.
Print Assumptions C118_available_partial.

Definition slot : param := {| p_name := "slot_id"; p_range := None; p_values := Some ["SLOT_A"; "SLOT_B"] |}.
Definition rig : param := {| p_name := "rig"; p_range := Some {| r_additional := None; r_min := 0; r_max := 2 |}; p_values := None |}.
Definition wide : param := {| p_name := "value"; p_range := Some {| r_additional := None; r_min := 0; r_max := 127 |}; p_values := None |}.
(* "All mappings are always offered" is false: one mapping with a range of more than 101 numbers, like all values of MIDI, and none at all are offered. *)
Theorem C118_wide_refuted : exists clients, generate clients false = None /\ (exists c m, In c clients /\ In m c /\ call m "TEMPO()") /\
  (exists c m, In c clients /\ In m c /\ call m "LEVEL(0)") /\
  generate [[{| m_name := "TEMPO"; m_params := [] |}]] false = Some ["TEMPO()"].
Proof.
  exists [[{| m_name := "TEMPO"; m_params := [] |}; {| m_name := "LEVEL"; m_params := [wide] |}]]. split; [vm_compute; reflexivity|]. split; [|split; [|vm_compute; reflexivity]].
  - eexists _, _. split; [left; reflexivity|]. split; [left; reflexivity|]. apply (Call0 {| m_name := "TEMPO"; m_params := [] |}). reflexivity.
  - eexists _, _. split; [left; reflexivity|]. split; [right; left; reflexivity|]. apply (Call1 {| m_name := "LEVEL"; m_params := [wide] |} wide "0"); [reflexivity|]. left. exists 0%Z. split; [cbn; lia|reflexivity].
Qed.
Print Assumptions C118_wide_refuted.

Example ex_choices : generate [[{| m_name := "RIG"; m_params := [rig] |}; {| m_name := "MIX"; m_params := [slot; rig] |}]; [{| m_name := "AMP"; m_params := [] |}]] true =
  Some ["AMP()"; "MIX(slot_id = SLOT_A)"; "MIX(slot_id = SLOT_B)"; "None"; "RIG(0)"; "RIG(1)"; "RIG(2)"] /\ tidy rig /\ tidy slot /\ NoDup ["RIG"; "MIX"; "AMP"].
Proof.
  split; [vm_compute; reflexivity|]. split; [intros l H; discriminate|]. split; [|repeat constructor; cbn; intuition discriminate].
  intros l H. injection H as <-. repeat constructor; cbn; intuition discriminate.
Qed.
