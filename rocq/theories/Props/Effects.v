(* C46: effect categories. *)
From Coq Require Import String.
From Verif.Lib Require Import Base.
From Verif.Model Require Import BinaryCb Effects.
From Verif.Spec Require Import Effects.
From Verif.Proofs Require Effects.
Open Scope string_scope. Open Scope Z_scope.

(* For every integer the lookup of name and colour succeeds, with the name and colour of its family, or those of an empty slot if
   it has none. *)
Theorem C46_total : forall t, exists n c, shown_name t = Some n /\ shown_color t = Some c /\
  (in_family t n c \/ (~ has_family t /\ n = "-" /\ c = DEFAULT_LABEL_COLOR)).
Proof. exact Effects.shown. Qed.
Print Assumptions C46_total.

(* Exactly one *)
Theorem C46_one_family : forall t n1 c1 n2 c2, in_family t n1 c1 -> in_family t n2 c2 -> n1 = n2 /\ c1 = c2.
Proof. exact Effects.families_disjoint. Qed.
Print Assumptions C46_one_family.
Theorem C46_family_shown : forall t n c, in_family t n c -> shown_name t = Some n /\ shown_color t = Some c.
Proof. exact Effects.family_shown. Qed.
Print Assumptions C46_family_shown.
Theorem C46_none : forall t, get_effect_category t = CATEGORY_NONE <-> ~ has_family t.
Proof. exact Effects.none_iff. Qed.
Print Assumptions C46_none.

(* With the extended names: the own name if the type has one, else the family name, after the slot name if wanted *)
Theorem C46_extended_text : forall slot t, exists n, (own_name t n \/ ((forall m, ~ own_name t m) /\ shown_name t = Some n)) /\
  get_effect_category_text None slot (Some EFFECT_TYPE_NAMES) (get_effect_category t) (Some t) = Some (match slot with Some s => String.append s (String.append " " n) | None => n end).
Proof. exact Effects.text_shown. Qed.
Print Assumptions C46_extended_text.

(* Named types have a category. Missing: type 137, see below. *)
Theorem C46_named_partial : forall t n, own_name t n -> t <> 0 -> t <> 137 -> get_effect_category t <> CATEGORY_NONE.
Proof. exact Effects.named_have_family. Qed.
Print Assumptions C46_named_partial.

Example C46_ex : in_family 161 "Delay" GREEN /\ shown_name 161 = Some "Delay" /\ own_name 161 "RhDelay" /\
  get_effect_category_text None (Some "DLY") (Some EFFECT_TYPE_NAMES) (get_effect_category 161) (Some 161) = Some "DLY RhDelay" /\
  ~ has_family 105 /\ ~ has_family (-3) /\ shown_name 1000000 = Some "-".
Proof.
  split; [exists 145, 166; split; [cbn; tauto|lia]|]. split; [reflexivity|]. split; [cbn; tauto|]. split; [reflexivity|].
  repeat split; apply Effects.none_iff; reflexivity.
Qed.

(* Finding: type 137 has a name ("DualChrom") but no category, so it is coloured and treated like an empty slot. *)
Theorem C46_named_refuted : exists t n, own_name t n /\ t <> 0 /\ get_effect_category t = CATEGORY_NONE /\ shown_color t = Some DEFAULT_LABEL_COLOR.
Proof. exists 137, "DualChrom". split; [cbn; tauto|]. split; [lia|]. split; reflexivity. Qed.
Print Assumptions C46_named_refuted.
(* The extended list calls type 90 "Fl 1way", the type list has Flanger Oneway at 91, which gets the family name. *)
Example C46_flanger_finding : own_name 90 "Fl 1way" /\
  get_effect_category_text None None (Some EFFECT_TYPE_NAMES) (get_effect_category 91) (Some 91) = Some "Phaser".
Proof. split; [cbn; tauto|reflexivity]. Qed.
