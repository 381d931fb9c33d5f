(* Lemmas for C89. *)
From Coq Require Import String Ascii Lia FinFun.
From Verif.Lib Require Import Base.
From Verif.Model Require Import Checks.
From Verif.Spec Require Import Checks.
Open Scope string_scope.
Local Open Scope list_scope.

Lemma oeqb_eq a b : oeqb a b = true <-> a = b.
Proof. destruct a, b; cbn; try (split; congruence). rewrite String.eqb_eq. split; congruence. Qed.
Lemma oeqb_refl a : oeqb a a = true. Proof. apply oeqb_eq. reflexivity. Qed.

(* ---- strings ---- *)

Lemma prefix_app t s : String.prefix t s = true <-> exists y, s = String.append t y.
Proof.
  revert s. induction t as [|c t IH]; intros s; [split; [intros _; exists s; reflexivity|intros _; destruct s; reflexivity]|]. destruct s as [|c' s]; [split; [discriminate|intros [y E]; discriminate E]|].
  cbn [String.prefix String.append]. destruct (ascii_dec c c') as [->|N].
  - rewrite IH. split; intros [y E]; exists y; [rewrite E; reflexivity|injection E as E; exact E].
  - split; [discriminate|]. intros [y E]. injection E as E _. congruence.
Qed.
Lemma includes_contains t s : includes t s = true <-> contains s t.
Proof.
  induction s as [|c s IH]; cbn [includes]; rewrite orb_true_iff, prefix_app.
  - split; [intros [[y E]|H]; [exists "", y; exact E|discriminate H]|]. intros [x [y E]]. destruct x; [left; exists y; exact E|discriminate E].
  - rewrite IH. split.
    + intros [[y E]|[x [y E]]]; [exists "", y; exact E|exists (String c x), y; cbn; rewrite E; reflexivity].
    + intros [x [y E]]. destruct x as [|c' x]; [left; exists y; exact E|]. cbn in E. injection E as _ E. right. exists x, y. exact E.
Qed.
Lemma split_spec s x y : split_dot s = (x, [y]) <-> s = String.append x (String "." y) /\ no_dot x /\ no_dot y.
Proof.
  assert (forall s x, split_dot s = (x, []) <-> s = x /\ no_dot x) as Q.
  { clear. unfold no_dot. induction s as [|c s IH]; intros x; cbn [split_dot].
    - split; [intros E; injection E as <-; cbn; tauto|]. intros [<- _]. reflexivity.
    - destruct (split_dot s) as [z l]. destruct (Ascii.eqb_spec c ".") as [->|N].
      + split; [discriminate|]. intros [<- H]. destruct H. left. reflexivity.
      + split.
        * intros E. injection E as <- ->. destruct (IH z) as [A _]. destruct (A eq_refl) as [-> H]. split; [reflexivity|]. cbn. intros [B|B]; [congruence|exact (H B)].
        * intros [<- H]. destruct (IH s) as [_ A]. assert ((z, l) = (s, [])) as W; [|injection W as -> ->; reflexivity]. apply A. split; [reflexivity|]. intros B. apply H. right. exact B. }
  revert x y. induction s as [|c s IH]; intros x y; cbn [split_dot].
  - split; [discriminate|]. intros [E _]. destruct x; discriminate E.
  - destruct (split_dot s) as [z l] eqn:S. destruct (Ascii.eqb_spec c ".") as [->|N].
    + split.
      * intros E. injection E as <- <- ->. apply Q in S. destruct S as [-> H]. split; [reflexivity|]. split; [intros []|exact H].
      * intros [E [A B]]. destruct x as [|c x]; [|cbn in E; injection E as E _; destruct A; left; symmetry; exact E]. cbn in E. injection E as ->. assert (split_dot y = (y, [])) as W by (apply Q; auto). rewrite W in S. injection S as <- <-. reflexivity.
    + split.
      * intros E. injection E as <- ->. destruct (IH z y) as [A _]. destruct (A eq_refl) as [-> [B C]]. split; [reflexivity|]. split; [|exact C]. intros [D|D]; [congruence|exact (B D)].
      * intros [E [A B]]. destruct x as [|c' x]; cbn in E; injection E as Ec E; [congruence|]. subst c'. destruct (IH x y) as [_ W]. assert ((z, l) = (x, [y])) as V; [|injection V as -> ->; reflexivity]. apply W. split; [exact E|]. split; [|exact B]. intros D. apply A. right. exact D.
Qed.

(* ---- pagers ---- *)

Lemma argument_value a n v : argument a n = Some v <-> value a n v.
Proof.
  unfold argument, value. induction (a_args a) as [|[m w] l IH]; cbn [find fst].
  - split; [discriminate|]. intros [be [af [E _]]]. destruct be; discriminate E.
  - destruct m as [m|]; [destruct (String.eqb_spec m n) as [->|N]|].
    + cbn [snd]. split; [intros E; injection E as ->; exists [], l; split; [reflexivity|intros w []]|]. intros [be [af [E H]]]. destruct be as [|b be]; [injection E as ->; reflexivity|]. injection E as <- _. destruct (H w). left. reflexivity.
    + rewrite IH. split; intros [be [af [E H]]]; [exists ((Some m, w) :: be), af; split; [rewrite E; reflexivity|intros z [W|W]; [congruence|exact (H z W)]]|].
      destruct be as [|b be]; [injection E as E _; congruence|]. injection E as <- E. exists be, af. split; [exact E|]. intros z W. apply (H z). right. exact W.
    + rewrite IH. split; intros [be [af [E H]]]; [exists ((None, w) :: be), af; split; [rewrite E; reflexivity|intros z [W|W]; [congruence|exact (H z W)]]|].
      destruct be as [|b be]; [discriminate E|]. injection E as <- E. exists be, af. split; [exact E|]. intros z W. apply (H z). right. exact W.
Qed.
Lemma given_spec v x : given v = Some x <-> v = Some x /\ x <> "" /\ x <> "None".
Proof.
  destruct v as [y|]; cbn [given]; [|split; [discriminate|intros [E _]; discriminate E]]. destruct (String.eqb_spec y "") as [->|A]; cbn [orb]; [split; [discriminate|intros [E [B _]]; congruence]|].
  destruct (String.eqb_spec y "None") as [->|B]; [split; [discriminate|intros [E [_ C]]; congruence]|]. split; [intros E; injection E as <-; auto|intros [E _]; exact E].
Qed.
Lemma pager_some a p : pager a = Some p <-> exists x g, argument a "enable_callback" = Some (String.append p (String "." x)) /\ no_dot p /\ no_dot x /\ argument a "id" = Some g /\ g <> "" /\ g <> "None".
Proof.
  unfold pager. split.
  - destruct (given (argument a "enable_callback")) as [ec|] eqn:E; [|discriminate]. destruct (given (argument a "id")) as [g|] eqn:G; [|discriminate]. destruct (split_dot ec) as [x [|y [|]]] eqn:S; try discriminate. intros H. injection H as ->.
    apply given_spec in E. apply given_spec in G. apply split_spec in S. destruct S as [-> [A B]]. exists y, g. tauto.
  - intros [x [g [A [B [C [D [E F]]]]]]]. assert (given (argument a "enable_callback") = Some (String.append p (String "." x))) as ->.
    { apply given_spec. split; [exact A|]. split; [destruct p; discriminate|]. intros W. assert (In "."%char (list_ascii_of_string "None")) as V; [rewrite <- W; clear; induction p as [|c p IH]; [left; reflexivity|right; exact IH]|]. cbn in V. intuition discriminate. }
    assert (given (argument a "id") = Some g) as -> by (apply given_spec; auto). assert (split_dot (String.append p (String "." x)) = (p, [x])) as -> by (apply split_spec; auto). reflexivity.
Qed.
Definition named (a : action) : Prop := forall x, ~ value a "enable_callback" (String "." x).
Lemma on_page_spec a p g : named a -> (on_page a p g <-> pager a = Some p /\ page a = Some g).
Proof.
  intros W. split.
  - intros [[x [A [B [C D]]]] [E [F G]]]. apply argument_value in A. apply argument_value in E. assert (pager a = Some p) as P by (apply pager_some; exists x, g; repeat split; first [exact A|assumption]). split; [exact P|]. unfold page. rewrite P. destruct (String.eqb_spec p ""); [congruence|exact E].
  - intros [P Q]. unfold page in Q. rewrite P in Q. apply pager_some in P. destruct P as [x [h [A [B [C [D [E F]]]]]]]. destruct (String.eqb_spec p "") as [->|N]; [discriminate Q|]. rewrite D in Q. injection Q as ->. split; [|split; [apply argument_value, D|auto]]. exists x. split; [apply argument_value, A|auto].
Qed.
Lemma page_some a : named a -> match pager a with Some p => exists g, page a = Some g | None => page a = None end.
Proof.
  intros W. unfold page. destruct (pager a) as [p|] eqn:P; [|reflexivity]. apply pager_some in P. destruct P as [x [h [A [B [C [D [E F]]]]]]]. destruct (String.eqb_spec p "") as [->|N]; [apply argument_value in A; destruct (W _ A)|]. rewrite D. eauto.
Qed.
Lemma together_spec a b : named a -> named b -> (together a b <-> pager a <> pager b \/ page a = page b).
Proof.
  intros Wa Wb. pose proof (page_some a Wa) as Pa. pose proof (page_some b Wb) as Pb. split.
  - intros [sh [A B]]. destruct (pager a) as [p|] eqn:E, (pager b) as [q|] eqn:F; try (left; congruence).
    + destruct (string_dec p q) as [->|N]; [|left; congruence]. right. destruct Pa as [g G], Pb as [h H]. rewrite G, H. f_equal. rewrite <- (A q g), <- (B q h); [reflexivity|apply on_page_spec; auto..].
    + right. congruence.
  - intros H. exists (fun p => if oeqb (pager a) (Some p) then match page a with Some g => g | None => "" end else match page b with Some g => g | None => "" end). split.
    + intros p g O. apply on_page_spec in O; [|exact Wa]. destruct O as [E F]. rewrite E, oeqb_refl, F. reflexivity.
    + intros p g O. apply on_page_spec in O; [|exact Wb]. destruct O as [E F]. rewrite F. destruct (oeqb (pager a) (Some p)) eqn:Q; [|reflexivity]. apply oeqb_eq in Q. destruct H as [H|H]; [congruence|]. rewrite H, F. reflexivity.
Qed.

(* ---- usages ---- *)

Definition usesb (d : string) (x : option string * string) : bool := String.eqb (snd x) d && match fst x with Some n => negb (includes "preview" n || includes "change" n) | None => false end.
Fixpoint positions (d : string) (k : nat) (l : list (option string * string)) : list nat :=
  match l with [] => [] | x :: l => (if usesb d x then [k] else []) ++ positions d (S k) l end.
Definition pairs_of (d : string) (l : list action) : list (action * nat) := flat_map (fun a => map (pair a) (positions d 0 (a_args a))) l.
Lemma usages_args_spec d a args k : (~ In (None, d) args -> usages_args d a args = Some (map (fun _ => a) (positions d k args))) /\ (In (None, d) args -> usages_args d a args = None).
Proof.
  revert k. induction args as [|[n v] args IH]; intros k; cbn [usages_args positions]; [split; [reflexivity|intros []]|]. destruct (IH (S k)) as [A B]. unfold usesb. cbn [fst snd]. destruct (String.eqb_spec v d) as [->|N]; cbn [andb].
  - destruct n as [n|].
    + split.
      * intros H. rewrite A by (intros W; apply H; right; exact W). rewrite map_app. destruct (includes "preview" n || includes "change" n); reflexivity.
      * intros [H|H]; [discriminate H|]. rewrite B by exact H. reflexivity.
    + split; [intros H; destruct H; left; reflexivity|reflexivity].
  - split.
    + intros H. rewrite A by (intros W; apply H; right; exact W). reflexivity.
    + intros [H|H]; [congruence|]. rewrite B by exact H. reflexivity.
Qed.
Lemma usages_actions_spec d l : (forall a, In a l -> ~ In (None, d) (a_args a)) -> usages_actions d l = Some (map fst (pairs_of d l)).
Proof.
  induction l as [|a l IH]; cbn [usages_actions pairs_of flat_map]; intros H; [reflexivity|]. destruct (usages_args_spec d a (a_args a) 0) as [A _]. rewrite A by (apply H; left; reflexivity). rewrite IH by (intros b Hb; apply H; right; exact Hb). fold (pairs_of d l). rewrite map_app, map_map. reflexivity.
Qed.
Lemma usages_spec d c : (forall a, In a (actions c) -> ~ In (None, d) (a_args a)) -> usages d c = Some (map fst (pairs_of d (actions c))).
Proof.
  induction c as [|[x y] c IH]; cbn [usages actions flat_map fst snd]; intros H; [reflexivity|]. fold (actions c) in *. rewrite !usages_actions_spec, IH by (intros a Ha; apply H; rewrite !in_app_iff; tauto). unfold pairs_of. rewrite <- app_assoc, !flat_map_app, !map_app. reflexivity.
Qed.
Lemma positions_spec d l k i : In i (positions d k l) <-> exists x, nth_error l (i - k) = Some x /\ (k <= i)%nat /\ usesb d x = true.
Proof.
  revert k. induction l as [|x l IH]; intros k; cbn [positions].
  - split; [intros []|]. intros [y [E _]]. destruct (i - k)%nat; discriminate E.
  - rewrite in_app_iff, IH. split.
    + intros [H|[y [A [B C]]]].
      * destruct (usesb d x) eqn:U; [|destruct H]. destruct H as [<-|[]]. exists x. rewrite Nat.sub_diag. auto.
      * exists y. replace (i - k)%nat with (S (i - S k)) by lia. cbn. repeat split; [exact A|lia|exact C].
    + intros [y [A [B C]]]. destruct (Nat.eq_dec i k) as [->|N].
      * rewrite Nat.sub_diag in A. cbn in A. injection A as ->. rewrite C. left. left. reflexivity.
      * right. exists y. replace (i - k)%nat with (S (i - S k)) in A by lia. cbn in A. repeat split; [exact A|lia|exact C].
Qed.
Lemma positions_nodup d l k : NoDup (positions d k l).
Proof.
  revert k. induction l as [|x l IH]; intros k; cbn [positions]; [constructor|]. destruct (usesb d x); cbn [app]; [|apply IH]. constructor; [|apply IH]. rewrite positions_spec. intros [y [_ [B _]]]. lia.
Qed.
Lemma usesb_uses d a i : (exists x, nth_error (a_args a) i = Some x /\ usesb d x = true) <-> uses a i d.
Proof.
  assert (forall n t, includes t n = false <-> ~ contains n t) as Q by (intros n t; rewrite <- includes_contains; destruct (includes t n); split; congruence).
  unfold uses, usesb. split.
  - intros [[[n|] v] [A B]]; cbn [fst snd] in B; apply andb_true_iff in B; destruct B as [B C]; [|discriminate C]. apply String.eqb_eq in B. subst v. exists n. split; [exact A|]. rewrite <- !Q. apply negb_true_iff, orb_false_iff in C. exact C.
  - intros [n [A [B C]]]. exists (Some n, d). split; [exact A|]. cbn [fst snd]. apply Q in B. apply Q in C. rewrite String.eqb_refl, B, C. reflexivity.
Qed.
Lemma pairs_in d l a i : In (a, i) (pairs_of d l) <-> In a l /\ uses a i d.
Proof.
  unfold pairs_of. rewrite in_flat_map. split.
  - intros [b [A B]]. apply in_map_iff in B. destruct B as [j [E B]]. injection E as -> ->. split; [exact A|]. apply positions_spec in B. rewrite Nat.sub_0_r in B. apply usesb_uses. destruct B as [x [B [_ C]]]. eauto.
  - intros [A B]. exists a. split; [exact A|]. apply in_map, positions_spec. rewrite Nat.sub_0_r. apply usesb_uses in B. destruct B as [x [B C]]. exists x. repeat split; [exact B|lia|exact C].
Qed.
Lemma pairs_nodup d l : NoDup (map a_id l) -> NoDup (pairs_of d l).
Proof.
  induction l as [|a l IH]; cbn [map pairs_of flat_map]; intros N; [constructor|]. inversion N as [|? ? H N']; subst. fold (pairs_of d l). specialize (IH N').
  assert (NoDup (map (pair a) (positions d 0 (a_args a)))) as P by (apply Injective_map_NoDup; [intros x y E; injection E; auto|apply positions_nodup]).
  assert (forall x, In x (map (pair a) (positions d 0 (a_args a))) -> ~ In x (pairs_of d l)) as Q.
  { intros x Hx Hy. apply in_map_iff in Hx. destruct Hx as [i [<- _]]. apply pairs_in in Hy. destruct H. apply in_map, Hy. }
  clear - IH P Q. induction P as [|x m H P IH2]; cbn [app]; [exact IH|]. constructor; [rewrite in_app_iff; intros [W|W]; [auto|exact (Q x (or_introl eq_refl) W)]|]. apply IH2. intros y Hy. apply Q. right. exact Hy.
Qed.

(* ---- the tree ---- *)

Definition inside (p g : option string) (t : pagers_tree) : Prop := exists pages, In (p, pages) t /\ In g pages.
Lemma add_page_inside p g t p' g' : inside p' g' (add_page p g t) <-> inside p' g' t \/ (p' = p /\ g' = g).
Proof.
  unfold inside. induction t as [|[x l] t IH]; cbn [add_page].
  - split; [intros [l [[E|[]] H]]; injection E as <- <-; destruct H as [<-|[]]; auto|]. intros [[l [[] _]]|[-> ->]]. exists [g]. split; left; reflexivity.
  - destruct (oeqb x p) eqn:E.
    + apply oeqb_eq in E. subst x. split.
      * intros [m [[H|H] G]]; [injection H as <- <-|left; exists m; split; [right; exact H|exact G]]. destruct (existsb (fun y => oeqb y g) l); [left; exists l; split; [left; reflexivity|exact G]|]. apply in_app_iff in G. destruct G as [G|[<-|[]]]; [left; exists l; split; [left; reflexivity|exact G]|right; auto].
      * intros [[m [[H|H] G]]|[-> ->]].
        -- injection H as <- <-. eexists. split; [left; reflexivity|]. destruct (existsb (fun y => oeqb y g) l); [exact G|apply in_or_app; auto].
        -- exists m. split; [right; exact H|exact G].
        -- eexists. split; [left; reflexivity|]. destruct (existsb (fun y => oeqb y g) l) eqn:X; [apply existsb_exists in X; destruct X as [y [X Y]]; apply oeqb_eq in Y; subst; exact X|apply in_or_app; right; left; reflexivity].
    + split.
      * intros [m [[H|H] G]]; [left; exists m; split; [left; exact H|exact G]|]. destruct IH as [IH _]. destruct IH as [[k [K L]]|W]; [exists m; auto|left; exists k; split; [right; exact K|exact L]|right; exact W].
      * intros W. destruct W as [[m [[H|H] G]]|W]; [exists m; split; [left; exact H|exact G]| |].
        -- destruct IH as [_ IH]. destruct IH as [k [K L]]; [left; exists m; auto|]. exists k. split; [right; exact K|exact L].
        -- destruct IH as [_ IH]. destruct IH as [k [K L]]; [right; exact W|]. exists k. split; [right; exact K|exact L].
Qed.
Lemma tree_inside us p g : inside p g (tree us) <-> exists u, In u us /\ pager u = p /\ page u = g.
Proof.
  unfold tree. assert (forall us t, inside p g (fold_left (fun t u => add_page (pager u) (page u) t) us t) <-> inside p g t \/ exists u, In u us /\ pager u = p /\ page u = g) as Q.
  { clear us. induction us as [|u us IH]; intros t; cbn [fold_left]; [split; [auto|intros [H|[u [[] _]]]; exact H]|]. rewrite IH, add_page_inside. split.
    - intros [[H|[-> ->]]|[v [A B]]]; [auto|right; exists u; cbn; auto|right; exists v; cbn; tauto].
    - intros [H|[v [[<-|A] [B C]]]]; [auto|subst; auto|right; exists v; auto]. }
  rewrite Q. split; [intros [[l [[] _]]|H]; exact H|auto].
Qed.

(* ---- messages ---- *)

Definition about (ms : list message) (d : string) (id : nat) : Prop := exists m, In m ms /\ fst m = d /\ In id (map a_id (snd m)).
Lemma distinct_ids l id : In id (map a_id (distinct l)) <-> In id (map a_id l).
Proof.
  induction l as [|a l IH]; cbn [distinct map In]; [tauto|]. split.
  - intros [H|H]; [auto|]. right. apply IH. apply in_map_iff in H. destruct H as [b [<- H]]. apply filter_In in H. apply in_map, H.
  - intros [H|H]; [auto|]. destruct (Nat.eq_dec (a_id a) id) as [E|N]; [auto|]. right. apply IH in H. apply in_map_iff in H. destruct H as [b [<- H]]. apply in_map, filter_In. split; [exact H|]. apply negb_true_iff, Nat.eqb_neq, N.
Qed.
Lemma add_message_about m ms d id : about (add_message m ms) d id <-> about ms d id \/ (fst m = d /\ In id (map a_id (snd m))).
Proof.
  unfold about. induction ms as [|x ms IH]; cbn [add_message].
  - split; [intros [y [[<-|[]] H]]; auto|]. intros [[y [[] _]]|H]. exists m. split; [left; reflexivity|exact H].
  - destruct (String.eqb_spec (fst x) (fst m)) as [E|N].
    + split.
      * intros [y [[<-|H] [A B]]]; [|left; exists y; cbn; auto]. cbn [fst snd] in *. rewrite distinct_ids, map_app, in_app_iff in B. destruct B as [B|B]; [left; exists x; cbn; auto|right; split; [congruence|exact B]].
      * intros [[y [[<-|H] [A B]]]|[A B]].
        -- eexists. split; [left; reflexivity|]. cbn [fst snd]. rewrite distinct_ids, map_app, in_app_iff. auto.
        -- exists y. split; [right; exact H|auto].
        -- eexists. split; [left; reflexivity|]. cbn [fst snd]. rewrite distinct_ids, map_app, in_app_iff. split; [congruence|auto].
    + split.
      * intros [y [[<-|H] W]]; [left; exists x; cbn; auto|]. destruct IH as [IH _]. destruct IH as [[z [A B]]|B]; [exists y; auto|left; exists z; cbn; auto|auto].
      * intros [[y [[<-|H] W]]|W]; [exists x; cbn; auto| |].
        -- destruct IH as [_ IH]. destruct IH as [z [A B]]; [left; exists y; auto|]. exists z. cbn. auto.
        -- destruct IH as [_ IH]. destruct IH as [z [A B]]; [right; exact W|]. exists z. cbn. auto.
Qed.
Definition hits (us : list action) (p g : option string) (id : nat) : Prop := (1 < length (filtered p g us))%nat /\ In id (map a_id (filtered p g us)).
Lemma check_page_about d us p ms g d' id : about (check_page d us p ms g) d' id <-> about ms d' id \/ (d = d' /\ hits us p g id).
Proof.
  unfold check_page, hits. destruct (Nat.ltb_spec 1 (length (filtered p g us))) as [L|L].
  - rewrite add_message_about. cbn [fst snd]. intuition.
  - split; [auto|]. intros [H|[_ [H _]]]; [exact H|lia].
Qed.
Lemma check_pages_about d us p gs ms d' id : about (fold_left (check_page d us p) gs ms) d' id <-> about ms d' id \/ (d = d' /\ exists g, In g gs /\ hits us p g id).
Proof.
  revert ms. induction gs as [|g gs IH]; intros ms; cbn [fold_left]; [split; [auto|intros [H|[_ [g [[] _]]]]; exact H]|]. rewrite IH, check_page_about. split.
  - intros [[H|[A B]]|[A [h [B C]]]]; [auto|right; split; [exact A|exists g; cbn; auto]|right; split; [exact A|exists h; cbn; auto]].
  - intros [H|[A [h [[<-|B] C]]]]; [auto|auto|right; split; [exact A|exists h; auto]].
Qed.
Lemma check_display_about d us ms d' id : about (check_display d us ms) d' id <-> about ms d' id \/ (d = d' /\ exists u, In u us /\ hits us (pager u) (page u) id).
Proof.
  assert (forall t ms, about (fold_left (fun ms t => fold_left (check_page d us (fst t)) (snd t) ms) t ms) d' id <-> about ms d' id \/ (d = d' /\ exists p g, inside p g t /\ hits us p g id)) as Q.
  { clear ms. induction t as [|[p gs] t IH]; intros ms; cbn [fold_left]; [split; [auto|intros [H|[_ [p [g [[l [[] _]] _]]]]]; exact H]|]. rewrite IH, check_pages_about. cbn [fst snd]. unfold inside. split.
    - intros [[H|[A [g [B C]]]]|[A [q [g [[l [B D]] C]]]]]; [auto| |].
      + right. split; [exact A|]. exists p, g. split; [exists gs; cbn; auto|exact C].
      + right. split; [exact A|]. exists q, g. split; [exists l; cbn; auto|exact C].
    - intros [H|[A [q [g [[l [[B|B] D]] C]]]]]; [auto| |].
      + injection B as -> ->. left. right. split; [exact A|]. exists g. auto.
      + right. split; [exact A|]. exists q, g. split; [exists l; auto|exact C]. }
  unfold check_display. rewrite Q. split; (intros [H|[A B]]; [auto|right; split; [exact A|]]).
  - destruct B as [p [g [B C]]]. apply tree_inside in B. destruct B as [u [B [<- <-]]]. exists u. auto.
  - destruct B as [u [B C]]. exists (pager u), (page u). split; [apply tree_inside; exists u; auto|exact C].
Qed.
Definition uslist (d : string) (c : config) : list action := map fst (pairs_of d (actions c)).
Lemma check_about ds c ms ms' d id : by_name ds c -> check ds c ms = Some ms' -> (about ms' d id <-> about ms d id \/ (In d ds /\ exists u, In u (uslist d c) /\ hits (uslist d c) (pager u) (page u) id)).
Proof.
  revert ms. induction ds as [|e ds IH]; intros ms B E; cbn [check] in E; [injection E as <-; split; [auto|intros [H|[[] _]]; exact H]|].
  rewrite usages_spec in E by (intros a Ha; apply B; [exact Ha|left; reflexivity]). fold (uslist e c) in E. rewrite (IH _ ltac:(intros a x Ha Hx; apply B; [exact Ha|right; exact Hx]) E), check_display_about. split.
  - intros [[H|[-> H]]|[A H]]; [auto|right; cbn; auto|right; cbn; auto].
  - intros [H|[[->|A] H]]; auto.
Qed.
Lemma check_total ds c ms : by_name ds c -> exists ms', check ds c ms = Some ms'.
Proof.
  revert ms. induction ds as [|e ds IH]; intros ms B; cbn [check]; [eauto|]. rewrite usages_spec by (intros a Ha; apply B; [exact Ha|left; reflexivity]). apply IH. intros a x Ha Hx. apply B; [exact Ha|right; exact Hx].
Qed.
Lemma warned_about ms a d : warned ms a d <-> about ms d (a_id a).
Proof.
  unfold warned, about, messages_for. split.
  - intros [m [H E]]. apply in_flat_map in H. destruct H as [x [A B]]. apply in_map_iff in B. destruct B as [b [<- B]]. apply filter_In in B. destruct B as [B C]. apply Nat.eqb_eq in C. exists x. split; [exact A|]. split; [exact E|]. rewrite <- C. apply in_map, B.
  - intros [m [A [B C]]]. exists m. split; [|exact B]. apply in_flat_map. exists m. split; [exact A|]. apply in_map_iff in C. destruct C as [b [C D]]. apply in_map_iff. exists b. split; [reflexivity|]. apply filter_In. split; [exact D|]. apply Nat.eqb_eq, C.
Qed.

(* ---- both ---- *)

Lemma filtered_pairs p g l : filtered p g (map fst l) = map fst (filter (fun x : action * nat => negb (oeqb (pager (fst x)) p) || (oeqb (page (fst x)) g && oeqb (pager (fst x)) p)) l).
Proof. unfold filtered. induction l as [|x l IH]; cbn [map filter]; [reflexivity|]. rewrite IH. destruct (negb _ || _); reflexivity. Qed.
Lemma test_spec p g u : negb (oeqb (pager u) p) || (oeqb (page u) g && oeqb (pager u) p) = true <-> pager u <> p \/ page u = g.
Proof.
  rewrite orb_true_iff, andb_true_iff, negb_true_iff, !oeqb_eq. split.
  - intros [H|[H _]]; [left; intros E; apply oeqb_eq in E; congruence|auto].
  - intros [H|H]; [left; destruct (oeqb (pager u) p) eqn:E; [apply oeqb_eq in E; congruence|reflexivity]|]. destruct (oeqb (pager u) p) eqn:E; [right; split; [exact H|apply oeqb_eq, E]|auto].
Qed.
Lemma pair_dec (x y : action * nat) : {x = y} + {x <> y}.
Proof. repeat decide equality. Qed.
Lemma two (l : list (action * nat)) x : NoDup l -> (1 < length l)%nat -> exists y, In y l /\ y <> x.
Proof.
  intros N L. destruct l as [|a [|b l]]; cbn [length] in L; [lia|lia|]. inversion N as [|? ? H _]; subst. cbn [In] in H. destruct (pair_dec a x) as [->|D]; [|exists a; cbn; auto]. exists b. split; [cbn; auto|]. intros ->. apply H. left. reflexivity.
Qed.
Lemma two_length (l : list (action * nat)) x y : In x l -> In y l -> x <> y -> (1 < length l)%nat.
Proof. intros A B D. destruct l as [|a [|b l]]; cbn [length]; [destruct A|destruct A as [->|[]], B as [->|[]]; congruence|lia]. Qed.
Lemma same_id c a b : NoDup (map a_id (actions c)) -> In a (actions c) -> In b (actions c) -> a_id a = a_id b -> a = b.
Proof.
  induction (actions c) as [|x l IH]; cbn [map In]; intros N A B E; [destruct A|]. inversion N as [|? ? H N']; subst. destruct A as [->|A], B as [->|B]; [reflexivity| | |auto]; destruct H; [rewrite E|rewrite <- E]; apply in_map; assumption.
Qed.
Lemma exact_hits d c a : sound c -> In a (actions c) ->
  ((exists u, In u (uslist d c) /\ hits (uslist d c) (pager u) (page u) (a_id a)) <-> exists i, uses a i d /\ exists b j, In b (actions c) /\ uses b j d /\ (b, j) <> (a, i) /\ together a b).
Proof.
  intros [N W] Ha. pose proof (pairs_nodup d (actions c) N) as ND. unfold hits, uslist.
  assert (forall b, In b (actions c) -> named b) as Nm by (intros b Hb x; apply W, Hb). split.
  - intros [u [Hu [L H]]]. apply in_map_iff in Hu. destruct Hu as [[u' k] [E Hk]]. cbn [fst] in E. subst u'. rewrite filtered_pairs in L, H. rewrite map_length in L. set (F := filter _ _) in *. assert (NoDup F) as NF by apply NoDup_filter, ND.
    assert (forall x, In x F <-> In x (pairs_of d (actions c)) /\ (pager (fst x) <> pager u \/ page (fst x) = page u)) as QF by (intros x; unfold F; rewrite filter_In, test_spec; reflexivity).
    apply in_map_iff in H. destruct H as [b [E H]]. apply in_map_iff in H. destruct H as [[b' i] [E' H]]. cbn [fst] in E'. subst b'. pose proof H as H'. apply QF in H'. destruct H' as [Hp Hc]. cbn [fst] in Hc. pose proof (proj1 (pairs_in _ _ _ _) Hp) as [Hb Ub]. pose proof (proj1 (pairs_in _ _ _ _) Hk) as [Hu Uk].
    assert (b = a) as -> by (eapply same_id; eauto). destruct (pair_dec (a, i) (u, k)) as [Eq|Ne].
    + injection Eq as -> ->. destruct (two F (u, k) NF L) as [[b j] [A B]]. apply QF in A. destruct A as [A C]. cbn [fst] in C. apply pairs_in in A. destruct A as [A D]. exists k. split; [exact Uk|]. exists b, j. split; [exact A|]. split; [exact D|]. split; [exact B|]. apply together_spec; [auto..|]. destruct C as [C|C]; [left; congruence|right; congruence].
    + exists i. split; [exact Ub|]. exists u, k. split; [exact Hu|]. split; [exact Uk|]. split; [congruence|]. apply together_spec; auto.
  - intros [i [Ui [b [j [Hb [Uj [Ne T]]]]]]]. exists a. split; [apply in_map_iff; exists (a, i); split; [reflexivity|apply pairs_in; auto]|]. rewrite filtered_pairs, map_length. set (F := filter _ _).
    assert (forall x, In x F <-> In x (pairs_of d (actions c)) /\ (pager (fst x) <> pager a \/ page (fst x) = page a)) as QF by (intros x; unfold F; rewrite filter_In, test_spec; reflexivity).
    assert (In (a, i) F) as A by (apply QF; split; [apply pairs_in; auto|right; reflexivity]). assert (In (b, j) F) as B.
    { apply QF. split; [apply pairs_in; auto|]. cbn [fst]. apply together_spec in T; auto. destruct T as [T|T]; [left; congruence|right; congruence]. }
    split; [apply (two_length F (b, j) (a, i)); assumption|]. apply (in_map a_id), in_map_iff. exists (a, i). auto.
Qed.
