(* C97: the list of pages of a pager, the names of new pagers and encoder buttons, and color fields. *)
From Coq Require Import String Ascii HexadecimalString DecimalString DecimalZ FinFun.
From Verif.Lib Require Import Base.
From Verif.Model Require Import Properties Label Pages.
From Verif.Spec Require Import Pages.
Open Scope string_scope.
Open Scope Z_scope.
Local Open Scope list_scope.

(* --- Numbers --- *)

Fixpoint all (f : ascii -> bool) (s : string) : bool := match s with EmptyString => true | String c r => f c && all f r end.
Lemma all_app f a b : all f (a ++ b) = (all f a && all f b)%bool.
Proof. induction a; cbn; [reflexivity|]. rewrite IHa. apply andb_assoc. Qed.
Lemma all_impl (f g : ascii -> bool) s : (forall c, f c = true -> g c = true) -> all f s = true -> all g s = true.
Proof. intros H. induction s; cbn; [auto|]. rewrite !andb_true_iff. intros [A B]. auto. Qed.
Lemma prefix_all ok s : all ok s = true -> prefix_of ok s = s.
Proof. induction s as [|c s IH]; cbn; [reflexivity|]. rewrite andb_true_iff. intros [-> H]. rewrite IH by exact H. reflexivity. Qed.
Lemma digits_uint u : all is_digit (NilEmpty.string_of_uint u) = true.
Proof. induction u; cbn; auto. Qed.

Lemma dec_uint n : 0 <= n -> exists u, dec n = NilEmpty.string_of_uint u /\ u <> Decimal.Nil /\ Z.of_uint u = n.
Proof.
  intros P. destruct n as [|p|p]; [| |lia].
  - exists (Decimal.D0 Decimal.Nil). repeat split; discriminate.
  - exists (Pos.to_uint p). pose proof (DecimalPos.Unsigned.to_uint_nonnil p) as N. split; [|split; [exact N|]].
    + unfold dec. cbn. destruct (Pos.to_uint p); [contradiction|reflexivity..].
    + exact (of_to (Zpos p)).
Qed.

Lemma natural_dec u : u <> Decimal.Nil -> natural (NilEmpty.string_of_uint u) = Some (Z.of_uint u).
Proof.
  intros N. unfold natural. rewrite prefix_all by apply digits_uint. pose proof (NilEmpty.usu u) as E.
  destruct (NilEmpty.string_of_uint u) as [|c s] eqn:D; [|rewrite E; reflexivity]. destruct u; [contradiction|discriminate D..].
Qed.

Lemma is_digit_not c : is_digit c = true -> is_space c = false /\ Ascii.eqb c "-" = false /\ Ascii.eqb c "+" = false /\ Ascii.eqb c "x" = false /\ Ascii.eqb c "X" = false /\
  Ascii.eqb c "," = false /\ Ascii.eqb c "(" = false /\ Ascii.eqb c ")" = false /\ Ascii.eqb c "r" = false.
Proof. destruct c as [[] [] [] [] [] [] [] []]; cbv; intros H; try discriminate H; repeat split; reflexivity. Qed.

Lemma unsigned_dec u : u <> Decimal.Nil -> unsigned (NilEmpty.string_of_uint u) = Some (Z.of_uint u).
Proof.
  intros N. rewrite <- natural_dec by exact N. pose proof (digits_uint u) as D. unfold unsigned. destruct (NilEmpty.string_of_uint u) as [|a [|b r]]; try reflexivity.
  cbn in D. rewrite !andb_true_iff in D. destruct D as (_ & D & _). apply is_digit_not in D. destruct D as (_ & _ & _ & -> & -> & _). rewrite andb_false_r. reflexivity.
Qed.

Lemma parse_dec n : 0 <= n -> parse_int (dec n) = Some n.
Proof.
  intros P. destruct (dec_uint n P) as (u & -> & N & <-). rewrite <- unsigned_dec by exact N. pose proof (digits_uint u) as D. unfold parse_int.
  destruct (NilEmpty.string_of_uint u) as [|a r] eqn:E; [reflexivity|]. cbn in D. rewrite andb_true_iff in D. destruct D as (D & _). apply is_digit_not in D.
  cbn [skip_space]. destruct D as (-> & -> & -> & _). reflexivity.
Qed.
Lemma parse_space_dec n : 0 <= n -> parse_int (String " " (dec n)) = Some n.
Proof. intros P. rewrite <- (parse_dec n P). reflexivity. Qed.
Lemma dec_digits n : 0 <= n -> all is_digit (dec n) = true.
Proof. intros P. destruct (dec_uint n P) as (u & -> & _). apply digits_uint. Qed.
Lemma dec_eq a b : 0 <= a -> 0 <= b -> dec a = dec b -> a = b.
Proof. intros A B E. apply (f_equal parse_int) in E. rewrite !parse_dec in E by assumption. congruence. Qed.

(* --- New IDs --- *)

Lemma highest_max l : forall h g n, In g l -> parse_int (g_id g) = Some n -> n <= fold_left (fun h g => match parse_int (g_id g) with Some n => if n >? h then n else h | None => h end) l h.
Proof.
  assert (M : forall l h, h <= fold_left (fun h g => match parse_int (g_id g) with Some n => if n >? h then n else h | None => h end) l h).
  { induction l0 as [|x l0 IH]; intros h; cbn [fold_left]; [lia|]. etransitivity; [|apply IH]. destruct (parse_int (g_id x)); [|lia]. destruct (z >? h) eqn:E; lia. }
  induction l as [|x l IH]; intros h g n; cbn [In fold_left]; [contradiction|]. intros [->|I] E; [|eapply IH; eassumption].
  rewrite E. etransitivity; [|apply M]. destruct (n >? h) eqn:E'; lia.
Qed.

Lemma next_unused l : ~ In (next_id l) (ids l).
Proof.
  intros I. unfold ids in I. apply in_map_iff in I. destruct I as (g & E & I). pose proof (highest_max l (-1) g) as H. fold (highest l) in H. unfold next_id in E.
  destruct (highest l <? 0) eqn:C.
  - specialize (H 1 I). rewrite E in H. specialize (H eq_refl). lia.
  - specialize (H (highest l + 1) I). rewrite E, parse_dec in H by lia. specialize (H eq_refl). lia.
Qed.

(* --- The list --- *)

Lemma length_change {A} (f : A -> A) k l : length (change f k l) = length l.
Proof. revert k. induction l as [|x l IH]; intros [|k]; cbn; auto. Qed.
Lemma nth_change {A} (f : A -> A) k l i : nth_error (change f k l) i = if Nat.eqb i k then option_map f (nth_error l i) else nth_error l i.
Proof.
  revert k i. induction l as [|x l IH]; intros [|k] [|i]; cbn; try reflexivity.
  - destruct (Nat.eqb i k); reflexivity.
  - apply IH.
Qed.
Lemma map_change {A B} (f : A -> A) (g : B -> B) (m : A -> B) k l : (forall x, m (f x) = g (m x)) -> map m (change f k l) = change g k (map m l).
Proof. intros H. revert k. induction l as [|x l IH]; intros [|k]; cbn; try reflexivity; [rewrite H|rewrite IH]; reflexivity. Qed.
Lemma replaced_change f k l : (k < length l)%nat -> replaced k f l (change f k l).
Proof.
  revert k. induction l as [|x l IH]; intros k; cbn [length]; [lia|]. destruct k as [|k]; intros L; cbn [change].
  - exists [], x, l. repeat split.
  - destruct (IH k) as (a & g & b & -> & E & ->); [lia|]. exists (x :: a), g, b. cbn. rewrite E. repeat split.
Qed.

Lemma opt_field s : opt s = field s.
Proof. unfold opt, field. destruct (string_dec s ""), (String.eqb_spec s ""); congruence. Qed.
Lemma strip_spec s : strip_quotes s = string_of_list_ascii (filter (fun c => if in_dec ascii_dec c ["'"%char; "034"%char] then false else true) (list_ascii_of_string s)).
Proof.
  unfold strip_quotes. induction s as [|c s IH]; [reflexivity|]. cbn [filter_string list_ascii_of_string filter]. rewrite IH.
  destruct (in_dec ascii_dec c ["'"%char; "034"%char]) as [I|I]; unfold dquote, squote; destruct (Ascii.eqb_spec c "034"%char), (Ascii.eqb_spec c "039"%char); cbn; try reflexivity; exfalso.
  - destruct I as [I|[I|[]]]; congruence.
  - apply I. cbn. auto.
  - apply I. cbn. auto.
  - apply I. cbn. auto.
Qed.
Lemma quote_spec s : opt (auto_quote s) = Some (quoted s).
Proof. unfold auto_quote, quoted. rewrite strip_spec. reflexivity. Qed.

Lemma get_set l : get (set l) = map (fun g => mkPage (g_id g) (opt (val (g_color g))) (opt (val (g_text g)))) l.
Proof. unfold get, set. rewrite map_map. reflexivity. Qed.
Lemma opt_val s : opt (val (opt s)) = opt s.
Proof. unfold opt. destruct (String.eqb_spec s ""); cbn; [reflexivity|]. destruct (String.eqb_spec s ""); congruence. Qed.
Lemma get_set_get l : get (set (get l)) = get l.
Proof. rewrite get_set. unfold get. rewrite map_map. apply map_ext. intros i. cbn. rewrite !opt_val. reflexivity. Qed.
Lemma get_add l : get (add l) = get l ++ [mkPage (next_id (get l)) None None].
Proof. unfold add. rewrite get_set, map_app, <- get_set, get_set_get. reflexivity. Qed.
Lemma get_filter p l : get (set (filter p (get l))) = filter p (get l).
Proof.
  rewrite get_set. transitivity (map (fun g : page => g) (filter p (get l))); [|apply map_id]. apply map_ext_in. intros g I. apply filter_In in I. destruct I as [I _].
  unfold get in I. apply in_map_iff in I. destruct I as (i & <- & _). cbn. rewrite !opt_val. reflexivity.
Qed.

Definition synced (l : list item) : Prop := Forall (fun i => i_shown i = i_id i) l.
Lemma set_synced l : synced (set l).
Proof. unfold synced, set. apply Forall_map. apply Forall_forall. reflexivity. Qed.
Lemma change_synced f k l : (forall i, i_shown i = i_id i -> i_shown (f i) = i_id (f i)) -> synced l -> synced (change f k l).
Proof. intros H S. revert k. induction S as [|i l E S IH]; intros [|k]; cbn; constructor; auto. apply IH. Qed.
Lemma nth_synced l k i : synced l -> nth_error l k = Some i -> i_shown i = i_id i.
Proof. intros S E. apply nth_error_In in E. unfold synced in S. rewrite Forall_forall in S. auto. Qed.
Lemma step_synced l e : match e with EditId _ _ => False | _ => True end -> synced l -> synced (step l e).
Proof.
  destruct e; cbn [step]; intros N S; try contradiction.
  - apply change_synced; auto.
  - apply change_synced; auto.
  - apply set_synced.
  - destruct (nth_error l k); [apply set_synced|exact S].
  - destruct (nth_error l i) eqn:Ei; [|exact S]. destruct (nth_error l j) eqn:Ej; [|exact S].
    apply change_synced; [intros; eapply nth_synced; eassumption|]. apply change_synced; [intros; eapply nth_synced; eassumption|exact S].
Qed.
Lemma run_synced h l : Forall (fun e => match e with EditId _ _ => False | _ => True end) h -> synced l -> synced (run l h).
Proof. unfold run. intros F. revert l. induction F as [|e h N F IH]; intros l S; cbn [fold_left]; [exact S|]. apply IH, step_synced; assumption. Qed.
Lemma unedited_synced init h : unedited h -> synced (run (set init) h).
Proof.
  intros (a & b & -> & A & F). unfold run. rewrite fold_left_app. apply run_synced; [exact F|]. destruct A as [->|(c & ->)]; [apply set_synced|].
  rewrite fold_left_app. cbn [fold_left step]. apply set_synced.
Qed.

Lemma filter_one a g b : NoDup (ids (a ++ g :: b)) -> filter (fun x => negb (String.eqb (g_id x) (g_id g))) (a ++ g :: b) = a ++ b.
Proof.
  intros N. rewrite filter_app. cbn [filter]. rewrite String.eqb_refl. cbn [negb]. unfold ids in N. rewrite map_app in N. cbn [map] in N. apply NoDup_remove_2 in N.
  assert (K : forall l, (forall x, In x l -> In (g_id x) (map g_id a ++ map g_id b)) -> filter (fun x => negb (String.eqb (g_id x) (g_id g))) l = l).
  { induction l as [|x l IH]; intros S; cbn [filter]; [reflexivity|]. destruct (String.eqb_spec (g_id x) (g_id g)) as [E|E]; cbn [negb].
    - exfalso. apply N. rewrite <- E. apply S. cbn. auto.
    - rewrite IH; [reflexivity|]. intros y I. apply S. cbn. auto. }
  rewrite !K; [reflexivity| |]; intros x I; apply in_or_app; [right|left]; apply in_map; exact I.
Qed.

(* What the user does on the list of pages has the intended effect, after any history. Missing: removing a page after its ID or the one of another page
   has been edited, and if there are several pages with the same ID, see C97_remove_refuted and C97_duplicate_refuted. *)
Theorem C97_effect_partial : forall init h e l,
  l = get (run (set init) h) -> possible l e -> small l -> (forall k, e = Remove k -> unedited h /\ NoDup (ids l)) ->
  effect l e (get (run (set init) (h ++ [e]))).
Proof.
  intros init h e l -> P _ R. unfold run. rewrite fold_left_app. fold (run (set init) h). set (s := run (set init) h) in *. cbn [fold_left].
  assert (L : length (get s) = length s) by apply map_length.
  destruct e as [k t|k t|k t| |k|i j]; cbn [step possible] in *.
  - apply e_id. unfold get. rewrite (map_change _ (fun g => mkPage t (g_color g) (g_text g))) by reflexivity. apply replaced_change, P.
  - apply e_color. unfold get. rewrite (map_change _ (fun g => mkPage (g_id g) (field t) (g_text g))); [apply replaced_change, P|]. intros x. cbn. rewrite opt_field. reflexivity.
  - apply e_text. unfold get. rewrite (map_change _ (fun g => mkPage (g_id g) (g_color g) (Some (quoted t)))); [apply replaced_change, P|]. intros x. cbn [g_id g_color i_text i_id i_color]. rewrite quote_spec. reflexivity.
  - rewrite get_add. apply e_add, next_unused.
  - destruct (R k eq_refl) as [U N]. destruct (nth_error s k) as [i|] eqn:E; [|apply nth_error_None in E; lia].
    rewrite (nth_synced s k i (unedited_synced _ _ U) E). unfold remove. rewrite get_filter.
    assert (E' : nth_error (get s) k = Some (mkPage (i_id i) (opt (i_color i)) (opt (i_text i)))) by (unfold get; rewrite nth_error_map, E; reflexivity).
    apply nth_error_split in E'. destruct E' as (a & b & E' & K). rewrite E' in N |- *. pose proof (filter_one a _ b N) as F. cbn [g_id] in F. rewrite F. eapply e_remove; [reflexivity|exact K].
  - destruct P as [Pi Pj]. destruct (nth_error s i) as [x|] eqn:Ei; [|apply nth_error_None in Ei; lia]. destruct (nth_error s j) as [y|] eqn:Ej; [|apply nth_error_None in Ej; lia].
    unfold get. apply e_swap.
    + rewrite !map_length, !length_change. reflexivity.
    + rewrite !nth_error_map, !nth_change, Nat.eqb_refl. destruct (Nat.eqb_spec i j) as [->|D]; rewrite ?Ei, ?Ej; cbn; congruence.
    + rewrite !nth_error_map, !nth_change, Nat.eqb_refl, Ei. destruct (Nat.eqb_spec j i); rewrite Ej; reflexivity.
    + intros k Ki Kj. rewrite !nth_error_map, !nth_change. apply Nat.eqb_neq in Ki, Kj. rewrite Ki, Kj. reflexivity.
Qed.
Print Assumptions C97_effect_partial.

(* The list shows the pages of the configuration. *)
Theorem C97_shown : forall l, (forall g, In g l -> g_color g <> Some "" /\ g_text g <> Some "") -> get (set l) = l.
Proof.
  intros l H. rewrite get_set. transitivity (map (fun g : page => g) l); [|apply map_id]. apply map_ext_in. intros g I. destruct (H g I) as [A B]. destruct g as [n c t]. cbn in *. unfold opt, val.
  f_equal; [destruct c as [c|]|destruct t as [t|]]; try reflexivity.
  - destruct (String.eqb_spec c ""); congruence.
  - destruct (String.eqb_spec t ""); congruence.
Qed.
Print Assumptions C97_shown.

(* Concrete case: pages 1, 2 and a named one; the text of one is edited, a page is added (3), two are swapped, the first is removed. *)
Example ex_pages :
  let l := [mkPage "1" None (Some "'A'"); mkPage "2" (Some "Colors.RED") None; mkPage "'x'" None None] in
  let h := [EditText 1 "it's"; Add; Swap 0 2; EditColor 0 "(1, 2, 3)"] in
  get (run (set l) h) = [mkPage "'x'" (Some "(1, 2, 3)") None; mkPage "2" (Some "Colors.RED") (Some "'its'"); mkPage "1" None (Some "'A'"); mkPage "3" None None] /\
  unedited h /\ NoDup (ids (get (run (set l) h))) /\ small (get (run (set l) h)) /\
  get (run (set l) (h ++ [Remove 0])) = [mkPage "2" (Some "Colors.RED") (Some "'its'"); mkPage "1" None (Some "'A'"); mkPage "3" None None].
Proof.
  cbn zeta. split; [reflexivity|]. split; [|split; [|split; [|reflexivity]]].
  - exists [EditText 1 "it's"; Add], [Swap 0 2; EditColor 0 "(1, 2, 3)"]. split; [reflexivity|]. split; [right; exists [EditText 1 "it's"]; reflexivity|repeat constructor].
  - repeat constructor; cbn; intuition discriminate.
  - intros g n I E. vm_compute in I. decompose [or] I; subst; try contradiction; vm_compute in E; inversion E; lia.
Qed.

(* The remove button of a page removes nothing, or another page, after IDs have been edited. *)
Theorem C97_remove_refuted :
  let l := [mkPage "1" None None; mkPage "2" None None] in
  get (run (set l) [EditId 0 "5"; Remove 0]) = [mkPage "5" None None; mkPage "2" None None] /\
  get (run (set l) [EditId 0 "3"; EditId 1 "1"; Remove 0]) = [mkPage "3" None None].
Proof. split; reflexivity. Qed.
Print Assumptions C97_remove_refuted.

(* Removing one of several pages with the same ID removes all of them. *)
Theorem C97_duplicate_refuted : forall color text,
  let l := [mkPage "1" None None; mkPage "1" color text; mkPage "2" None None] in get (run (set l) [Remove 0]) = [mkPage "2" None None].
Proof. reflexivity. Qed.
Print Assumptions C97_duplicate_refuted.

(* --- Names --- *)

Definition candidate (base : string) (k : nat) : string := match k with O => base | S k => (base ++ dec (Z.of_nat k + 2))%string end.
Lemma app_inj_l a b c : (a ++ b = a ++ c)%string -> b = c.
Proof. induction a; cbn; [auto|]. intros E. injection E. exact IHa. Qed.
Lemma candidate_inj base i j : candidate base i = candidate base j -> i = j.
Proof.
  assert (N : forall k, base <> (base ++ dec (Z.of_nat k + 2))%string).
  { intros k E. assert (E' : (base ++ "" = base ++ dec (Z.of_nat k + 2))%string). { rewrite <- E. clear E. induction base; cbn; congruence. }
    apply app_inj_l in E'. destruct (dec_uint (Z.of_nat k + 2)) as (u & D & U & _); [lia|]. rewrite D in E'. destruct u; [contradiction|discriminate..]. }
  destruct i as [|i], j as [|j]; cbn; intros E; [reflexivity| | |].
  - exfalso. eapply N; eassumption.
  - exfalso. symmetry in E. eapply N; eassumption.
  - apply app_inj_l, dec_eq in E; lia.
Qed.
Lemma exists_spec l s : exists_name l s = true <-> In (Some s) l.
Proof.
  unfold exists_name. rewrite existsb_exists. split.
  - intros ([t|] & I & E); [|discriminate]. apply String.eqb_eq in E. congruence.
  - intros I. exists (Some s). rewrite String.eqb_refl. auto.
Qed.
Lemma search_spec base l n : forall k, (forall i, (i < k)%nat -> In (Some (candidate base i)) l) ->
  match search n base l (candidate base k) (Z.of_nat k + 2) with
  | Some s => ~ In (Some s) l /\ exists i, s = candidate base i /\ forall j, (j < i)%nat -> In (Some (candidate base j)) l
  | None => forall i, (i < k + n)%nat -> In (Some (candidate base i)) l
  end.
Proof.
  induction n as [|n IH]; intros k H; cbn [search].
  - intros i L. apply H. lia.
  - destruct (exists_name l (candidate base k)) eqn:E.
    + apply exists_spec in E. specialize (IH (S k)). change (base ++ dec (Z.of_nat k + 2))%string with (candidate base (S k)). replace (Z.of_nat k + 2 + 1) with (Z.of_nat (S k) + 2) by lia.
      assert (H' : forall i, (i < S k)%nat -> In (Some (candidate base i)) l). { intros i L. destruct (Nat.eq_dec i k) as [->|D]; [exact E|apply H; lia]. }
      specialize (IH H'). destruct search; [exact IH|]. intros i L. apply IH. lia.
    + split; [|exists k; auto]. intros I. apply exists_spec in I. congruence.
Qed.
Lemma search_ends base l n : (length l < n)%nat -> exists s, search n base l base 2 = Some s.
Proof.
  intros L. pose proof (search_spec base l n 0) as H. cbn [candidate] in H. change (Z.of_nat 0 + 2) with 2 in H. destruct search as [s|]; [exists s; reflexivity|].
  exfalso. assert (I : incl (map (fun i => Some (candidate base i)) (seq 0 n)) l).
  { intros x I. apply in_map_iff in I. destruct I as (i & <- & I). apply in_seq in I. apply H; lia. }
  apply NoDup_incl_length in I; [rewrite map_length, seq_length in I; lia|]. apply Injective_map_NoDup; [|apply seq_NoDup]. intros i j E. injection E. apply candidate_inj.
Qed.
Lemma actions_in l name s : In (Some s) (actions l name) <-> In (name, Some s) l.
Proof.
  unfold actions. rewrite in_map_iff. split.
  - intros ((x & y) & E & I). apply filter_In in I. destruct I as [I E']. cbn in *. apply String.eqb_eq in E'. subst. exact I.
  - intros I. exists (name, Some s). split; [reflexivity|]. apply filter_In. cbn. rewrite String.eqb_refl. auto.
Qed.
Lemma actions_length l name : (length (actions l name) <= length l)%nat.
Proof. unfold actions. rewrite map_length. induction l as [|x l IH]; cbn; [lia|]. destruct (String.eqb (fst x) name); cbn; lia. Qed.

(* The search for a name ends, and the name is not the one of another pager (encoder button): it is the base, or the base with a number from 2 on, and the first one
   which is not used. Missing: names used otherwise in the configuration, see C97_name_refuted. *)
Theorem C97_name_partial : forall l,
  (exists s, next_pager (S (length l)) l = Some s /\ ~ In ("PagerAction", Some s) l /\
    (s = "_pager" \/ exists n, 2 <= n /\ s = ("_pager" ++ dec n)%string /\ In ("PagerAction", Some "_pager") l /\ forall m, 2 <= m < n -> In ("PagerAction", Some ("_pager" ++ dec m)%string) l)) /\
  (exists s, next_encoder (S (length l)) l = Some s /\ ~ In ("ENCODER_BUTTON", Some s) l /\
    (s = "_encoder_button" \/ exists n, 2 <= n /\ s = ("_encoder_button" ++ dec n)%string /\ In ("ENCODER_BUTTON", Some "_encoder_button") l /\ forall m, 2 <= m < n -> In ("ENCODER_BUTTON", Some ("_encoder_button" ++ dec m)%string) l)).
Proof.
  intros l.
  assert (K : forall name base, exists s, search (S (length l)) base (actions l name) base 2 = Some s /\ ~ In (name, Some s) l /\
    (s = base \/ exists n, 2 <= n /\ s = (base ++ dec n)%string /\ In (name, Some base) l /\ forall m, 2 <= m < n -> In (name, Some (base ++ dec m)%string) l)).
  { intros name base. destruct (search_ends base (actions l name) (S (length l))) as (s & E). { pose proof (actions_length l name). lia. }
    exists s. split; [exact E|]. pose proof (search_spec base (actions l name) (S (length l)) 0) as H. cbn [candidate] in H. change (Z.of_nat 0 + 2) with 2 in H. rewrite E in H.
    destruct H as (N & i & -> & B); [lia|]. split; [rewrite <- actions_in; exact N|]. destruct i as [|i]; [left; reflexivity|]. right. exists (Z.of_nat i + 2). split; [lia|]. split; [reflexivity|].
    split; [apply actions_in, (B O); lia|]. intros m M. apply actions_in. specialize (B (S (Z.to_nat (m - 2)))). cbn [candidate] in B. replace (Z.of_nat (Z.to_nat (m - 2)) + 2) with m in B by lia. apply B. lia. }
  split; apply K.
Qed.
Print Assumptions C97_name_partial.

Example ex_name :
  let l := [("PagerAction", Some "_pager"); ("AnalogAction", None); ("PagerAction", Some "_pager2"); ("PagerAction", Some "other")] in next_pager (S (length l)) l = Some "_pager3".
Proof. reflexivity. Qed.

(* The name of a new pager may be the one of another action of the configuration, which it then replaces. *)
Theorem C97_name_refuted : exists l s, next_pager (S (length l)) l = Some s /\ exists name, In (name, Some s) l.
Proof. exists [("ENCODER_BUTTON", Some "_pager")], "_pager". split; [reflexivity|]. exists "ENCODER_BUTTON". cbn. auto. Qed.
Print Assumptions C97_name_refuted.

(* --- Colors --- *)

Lemma byte_seq c : byte c -> In c (map Z.of_nat (seq 0 256)).
Proof. intros B. unfold byte in B. apply in_map_iff. exists (Z.to_nat c). split; [lia|]. apply in_seq. lia. Qed.
Definition digits16 : list ascii := list_ascii_of_string "0123456789abcdef".
Definition good (c : Z) : bool :=
  match component c with
  | String a (String b EmptyString) => existsb (Ascii.eqb a) digits16 && existsb (Ascii.eqb b) digits16 && match parse_hex (String a (String b "")) with Some n => n =? c | None => false end
  | _ => false
  end.
Lemma goods : forallb good (map Z.of_nat (seq 0 256)) = true.
Proof. vm_compute. reflexivity. Qed.
Lemma component_good c : byte c -> exists a b, component c = String a (String b "") /\ hex_digit a /\ hex_digit b /\ parse_hex (String a (String b "")) = Some c.
Proof.
  intros B. pose proof goods as G. rewrite forallb_forall in G. specialize (G c (byte_seq c B)). unfold good in G.
  destruct (component c) as [|a [|b [|? ?]]]; try discriminate. rewrite !andb_true_iff, !existsb_exists in G. destruct G as (((x & X & EX) & y & Y & EY) & P).
  apply Ascii.eqb_eq in EX, EY. subst x y. exists a, b. repeat split; auto. destruct parse_hex as [n|]; [|discriminate]. apply Z.eqb_eq in P. congruence.
Qed.
Definition good' (p : ascii * ascii) : bool :=
  match parse_hex (String (fst p) (String (snd p) "")) with Some n => (0 <=? n) && (n <? 256) && String.eqb (component n) (String (fst p) (String (snd p) "")) | None => false end.
Lemma goods' : forallb good' (list_prod digits16 digits16) = true.
Proof. vm_compute. reflexivity. Qed.
Lemma digits_good a b : hex_digit a -> hex_digit b -> exists c, byte c /\ parse_hex (String a (String b "")) = Some c /\ component c = String a (String b "").
Proof.
  intros A B. pose proof goods' as G. rewrite forallb_forall in G. specialize (G (a, b)). unfold good' in G. cbn [fst snd] in G. assert (I : In (a, b) (list_prod digits16 digits16)) by (apply in_prod; assumption).
  specialize (G I). destruct parse_hex as [n|]; [|discriminate]. rewrite !andb_true_iff in G. destruct G as ((L & H) & E). apply String.eqb_eq in E. exists n. unfold byte. split; [lia|auto].
Qed.

Definition without (c : ascii) : string -> bool := all (fun x => negb (Ascii.eqb x c)).
Lemma without_digits c n : 0 <= n -> is_digit c = false -> without c (dec n) = true.
Proof. intros P D. apply (all_impl is_digit); [|apply dec_digits, P]. intros x X. destruct (Ascii.eqb_spec x c); [congruence|reflexivity]. Qed.
Lemma replace_without c a s : without c s = true -> replace_first (String c a) s = s.
Proof.
  induction s as [|x s IH]; [reflexivity|]. unfold without. cbn [all]. rewrite andb_true_iff. intros [N W]. cbn [replace_first String.prefix].
  destruct (ascii_dec c x) as [->|D]; [rewrite Ascii.eqb_refl in N; discriminate|]. rewrite IH by exact W. reflexivity.
Qed.
Lemma substring_all s : substring 0 (String.length s) s = s.
Proof. induction s as [|c s IH]; [reflexivity|]. cbn. rewrite IH. reflexivity. Qed.
Lemma substring_S s : forall n, (String.length s <= n)%nat -> substring 0 n s = s.
Proof. induction s as [|c s IH]; intros n L; [destruct n; reflexivity|]. cbn in L. destruct n; [lia|]. cbn. rewrite IH by lia. reflexivity. Qed.
Lemma replace_head c s : replace_first (String c "") (String c s) = s.
Proof. cbn [replace_first String.prefix]. destruct (ascii_dec c c); [|contradiction]. replace (String.prefix "" s) with true by (destruct s; reflexivity). cbn [String.length substring]. apply substring_S. lia. Qed.
Lemma replace_last c s : without c s = true -> replace_first (String c "") (s ++ String c "") = s.
Proof.
  induction s as [|x s IH]; intros W; [apply replace_head|]. unfold without in W. cbn [all] in W. rewrite andb_true_iff in W. destruct W as [N W].
  change ((String x s ++ String c "")%string) with (String x (s ++ String c "")). cbn [replace_first String.prefix]. destruct (ascii_dec c x) as [->|D]; [rewrite Ascii.eqb_refl in N; discriminate|].
  rewrite IH by exact W. reflexivity.
Qed.
Lemma split_one s : without "," s = true -> split_comma s = [s].
Proof. induction s as [|x s IH]; [reflexivity|]. unfold without. cbn [all]. rewrite andb_true_iff. intros [N W]. cbn [split_comma]. destruct (Ascii.eqb x ","); [discriminate|]. rewrite IH by exact W. reflexivity. Qed.
Lemma split_more s t : without "," s = true -> split_comma (s ++ String "," t) = s :: split_comma t.
Proof.
  induction s as [|x s IH]; [reflexivity|]. unfold without. cbn [all]. rewrite andb_true_iff. intros [N W]. change ((String x s ++ String "," t)%string) with (String x (s ++ String "," t)). cbn [split_comma].
  destruct (Ascii.eqb x ","); [discriminate|]. rewrite IH by exact W. reflexivity.
Qed.
Lemma string_assoc (a b c : string) : ((a ++ b) ++ c = a ++ (b ++ c))%string.
Proof. induction a; cbn; congruence. Qed.

Lemma shown r g b : byte r -> byte g -> byte b -> rgb_to_hex (rgb_text (r, g, b)) = Some ("#" ++ component r ++ component g ++ component b)%string.
Proof.
  intros R G B. unfold byte in *. unfold rgb_to_hex, rgb_text. set (body := (dec r ++ String "," (String " " (dec g) ++ String "," (String " " (dec b))))%string).
  assert (E : ("(" ++ dec r ++ ", " ++ dec g ++ ", " ++ dec b ++ ")")%string = String "(" (body ++ String ")" "")).
  { unfold body. cbn. f_equal. rewrite string_assoc. cbn. do 3 f_equal. rewrite string_assoc. reflexivity. }
  rewrite E, replace_head.
  assert (W : forall c, is_digit c = false -> Ascii.eqb "," c = false -> Ascii.eqb " " c = false -> without c body = true).
  { intros c D C S. unfold body, without. rewrite all_app. cbn [all]. rewrite all_app. cbn [all]. pose proof (without_digits c r) as H1. pose proof (without_digits c g) as H2. pose proof (without_digits c b) as H3.
    unfold without in *. rewrite H1, C by (lia || exact D). cbn [all]. rewrite S, H2 by (lia || exact D). cbn [all]. rewrite H3 by (lia || exact D). reflexivity. }
  rewrite replace_last by (apply W; reflexivity). rewrite (replace_without "r" "gba") by (apply W; reflexivity). rewrite (replace_without "r" "gb") by (apply W; reflexivity).
  unfold body. assert (S : forall n, 0 <= n -> without "," (String " " (dec n)) = true). { intros n P. exact (without_digits "," n P eq_refl). }
  rewrite split_more by (apply without_digits; [lia|reflexivity]). rewrite split_more by (apply S; lia). rewrite split_one by (apply S; lia). cbn [nth].
  rewrite parse_dec, !parse_space_dec by lia. reflexivity.
Qed.

Lemma six l : length l = 6%nat -> exists a b c d e f : ascii, l = [a; b; c; d; e; f].
Proof. destruct l as [|a [|b [|c [|d [|e [|f [|]]]]]]]; cbn; try discriminate. intros _. repeat eexists. Qed.

(* A color chosen with the picker is written as (r, g, b) with the components of the color, and the picker shows the same color for it. *)
Theorem C97_color_picked : forall s, color_value s -> exists r g b, byte r /\ byte g /\ byte b /\ pick s = Some (rgb_text (r, g, b)) /\ rgb_to_hex (rgb_text (r, g, b)) = Some s.
Proof.
  intros s (l & -> & L & F). destruct (six l L) as (a & b & c & d & e & f & ->). repeat match goal with H : Forall _ (_ :: _) |- _ => inv H end.
  destruct (digits_good a b) as (r & Br & Pr & Cr); auto. destruct (digits_good c d) as (g & Bg & Pg & Cg); auto. destruct (digits_good e f) as (x & Bx & Px & Cx); auto.
  exists r, g, x. split; [exact Br|]. split; [exact Bg|]. split; [exact Bx|]. split.
  - unfold pick, hex_to_rgb. cbn [string_of_list_ascii substring]. rewrite Pr, Pg, Px. reflexivity.
  - rewrite shown by assumption. rewrite Cr, Cg, Cx. cbn [String.append string_of_list_ascii]. reflexivity.
Qed.
Print Assumptions C97_color_picked.

(* For each color (r, g, b) in the configuration, the picker shows this color. *)
Theorem C97_color_shown : forall r g b, byte r -> byte g -> byte b -> exists s, rgb_to_hex (rgb_text (r, g, b)) = Some s /\ color_value s /\ hex_to_rgb s = (Some r, Some g, Some b).
Proof.
  intros r g b R G B. destruct (component_good r R) as (a1 & a2 & E1 & A1 & A2 & P1). destruct (component_good g G) as (b1 & b2 & E2 & B1 & B2 & P2). destruct (component_good b B) as (c1 & c2 & E3 & C1 & C2 & P3).
  eexists. split; [apply shown; assumption|]. rewrite E1, E2, E3. split.
  - exists [a1; a2; b1; b2; c1; c2]. split; [reflexivity|]. split; [reflexivity|]. repeat (apply Forall_cons; [assumption|]). apply Forall_nil.
  - unfold hex_to_rgb. cbn [String.append substring]. rewrite P1, P2, P3. reflexivity.
Qed.
Print Assumptions C97_color_shown.

Example ex_color : rgb_text (255, 8, 160) = "(255, 8, 160)" /\ rgb_to_hex "(255, 8, 160)" = Some "#ff08a0" /\ pick "#ff08a0" = Some "(255, 8, 160)" /\ rgb_to_hex "rgb(1,2,30)" = Some "#01021e".
Proof. split; [|split; [|split]]; vm_compute; reflexivity. Qed.
