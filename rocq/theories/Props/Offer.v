(* C117: which functions the web application offers. *)
From Coq Require Import String Ascii Lia.
From Verif.Lib Require Import Base.
From Verif.Model Require Import Offer.
From Verif.Spec Require Import Offer.
Local Open Scope list_scope.
Local Open Scope string_scope.

Lemma app_assoc_s (a b c : string) : append (append a b) c = append a (append b c).
Proof. induction a as [|x a IH]; cbn; [reflexivity|]. f_equal. exact IH. Qed.
Lemma app_inv_head_s (a b c : string) : append a b = append a c -> b = c.
Proof. induction a as [|x a IH]; cbn; [auto|]. intros H. injection H as H. auto. Qed.
Lemma ends_spec suffix s : ends_with suffix s = true <-> exists stem, s = append stem suffix.
Proof.
  induction s as [|c s IH]; cbn [ends_with].
  - rewrite orb_false_r, String.eqb_eq. split; [intros <-; exists ""; reflexivity|]. intros [[|x stem] E]; [exact E|discriminate].
  - rewrite orb_true_iff, String.eqb_eq, IH. split.
    + intros [<-|[stem ->]]; [exists ""; reflexivity|exists (String c stem); reflexivity].
    + intros [[|x stem] E]; cbn in E; [left; exact E|right]. injection E as -> ->. exists stem. reflexivity.
Qed.
Lemma prefix_spec p s : String.prefix p s = true <-> exists r, s = append p r.
Proof.
  revert s. induction p as [|c p IH]; intros s; [destruct s; cbn; (split; [intros _; eexists; reflexivity|reflexivity])|]. destruct s as [|x s]; cbn; [split; [discriminate|intros [r E]; discriminate]|].
  destruct (ascii_dec c x) as [->|N]; [|split; [discriminate|intros [r E]; injection E as E _; congruence]]. rewrite IH. split; intros [r E]; exists r; [rewrite E; reflexivity|injection E as E; exact E].
Qed.
Lemma examined_spec x : examined x = true <-> module x.
Proof.
  unfold examined, module. rewrite andb_true_iff, negb_true_iff, ends_spec. split; intros [A B]; (split; [exact A|]).
  - intros E. apply prefix_spec in E. congruence.
  - destruct (String.prefix "__" x) eqn:E; [|reflexivity]. exfalso. apply B. apply prefix_spec. exact E.
Qed.
Lemma dots_spec s : dots s = string_of_list_ascii (map (fun c => if Ascii.eqb c "/" then "." else c)%char (list_ascii_of_string s)).
Proof. induction s as [|c s IH]; [reflexivity|]. cbn [dots list_ascii_of_string map string_of_list_ascii]. rewrite IH. reflexivity. Qed.
Lemma dots_app a b : dots (append a b) = append (dots a) (dots b).
Proof. induction a as [|c a IH]; cbn; [reflexivity|]. f_equal. exact IH. Qed.
Lemma substring_app a b : String.substring 0 (String.length a) (append a b) = a.
Proof. induction a as [|c a IH]; cbn; [destruct b; reflexivity|]. f_equal. exact IH. Qed.
Lemma length_app_s a b : String.length (append a b) = (String.length a + String.length b)%nat.
Proof. induction a as [|c a IH]; cbn; [reflexivity|]. f_equal. exact IH. Qed.
Lemma remove_spec suffix a : remove_suffix suffix (append a suffix) = a.
Proof.
  unfold remove_suffix. replace (ends_with suffix (append a suffix)) with true by (symmetry; apply ends_spec; exists a; reflexivity).
  rewrite length_app_s. replace (String.length a + String.length suffix - String.length suffix)%nat with (String.length a) by lia. apply substring_app.
Qed.

Lemma node_ind2 (P : node -> Prop) (PF : forall x b, P (File x b)) (PD : forall d l, (forall c, In c l -> P c) -> P (Dir d l)) : forall n, P n.
Proof.
  fix F 1. intros [x b|d l]; [apply PF|]. apply PD. induction l as [|x l IH]; intros c I; [destruct I|]. destruct I as [<-|I]; [apply F|apply IH; exact I].
Qed.

Definition step_path (prefix x : string) : string := append prefix (append (if String.eqb prefix "" then "" else "/") x).
Lemma step_nonempty prefix x : prefix <> "" -> step_path prefix x = append prefix (String "/" x) /\ step_path prefix x <> "".
Proof. intros N. unfold step_path. apply String.eqb_neq in N. rewrite N. split; [reflexivity|]. destruct prefix; discriminate. Qed.
Lemma concat_step prefix x p : prefix <> "" -> String.concat "/" (step_path prefix x :: p) = String.concat "/" (prefix :: x :: p).
Proof. intros N. destruct (step_nonempty prefix x N) as [-> _]. destruct p as [|y p]; cbn [String.concat]; [reflexivity|]. rewrite app_assoc_s. reflexivity. Qed.

Lemma crawl_spec n : forall prefix, prefix <> "" -> forall path b,
  In (path, b) (crawl prefix n) <-> exists p file, under n p (File file b) /\ module file /\ path = String.concat "/" (prefix :: p).
Proof.
  induction n as [x body|d l IH] using node_ind2; intros prefix N path b; cbn [crawl].
  - destruct (examined x) eqn:E.
    + split.
      * intros [H|[]]. injection H as <- <-. exists [], x. split; [constructor|]. split; [apply examined_spec; exact E|reflexivity].
      * intros (p & file & U & M & ->). inversion U; subst. left. reflexivity.
    + split; [intros []|]. intros (p & file & U & M & ->). inversion U; subst. apply examined_spec in M. congruence.
  - rewrite in_flat_map. split.
    + intros (c & I & H). fold (step_path prefix (name c)) in H. apply (IH c I _ (proj2 (step_nonempty prefix (name c) N))) in H. destruct H as (p & file & U & M & ->).
      exists (name c :: p), file. split; [econstructor; eassumption|]. split; [exact M|]. apply concat_step. exact N.
    + intros (p & file & U & M & ->). inversion U; subst. exists c. split; [assumption|]. fold (step_path prefix (name c)).
      apply (IH c ltac:(assumption) _ (proj2 (step_nonempty prefix (name c) N))). exists p0, file. split; [assumption|]. split; [exact M|]. symmetry. apply concat_step. exact N.
Qed.

Lemma proper_child d l c : proper (Dir d l) -> In c l -> proper c.
Proof. intros P I. inversion P as [|? ? _ H]; subst. apply H. exact I. Qed.
Lemma find_child l c : NoDup (map name l) -> In c l -> find (fun x => String.eqb (name x) (name c)) l = Some c.
Proof.
  induction l as [|x l IH]; intros D I; [destruct I|]. cbn. cbn in D. inversion D as [|? ? N D']; subst. destruct I as [->|I]; [rewrite String.eqb_refl; reflexivity|].
  destruct (String.eqb_spec (name x) (name c)) as [E|E]; [exfalso; apply N; rewrite E; apply in_map; exact I|]. apply IH; assumption.
Qed.
Lemma walk_spec sub : forall toc n, proper toc -> (walk toc sub = Some n <-> under toc sub n).
Proof.
  induction sub as [|t sub IH]; intros toc n P; cbn [walk].
  - split; [intros H; injection H as ->; constructor|]. intros U. inversion U; reflexivity.
  - split.
    + destruct toc as [x b|d l]; cbn [get_child]; [discriminate|]. destruct (find _ l) as [c|] eqn:F; [|discriminate]. apply find_some in F. destruct F as [I E]. apply String.eqb_eq in E. subst t.
      intros W. econstructor; [exact I|]. apply IH; [exact (proper_child _ _ _ P I)|exact W].
    + intros U. inversion U; subst. cbn [get_child]. inversion P; subst. rewrite find_child by assumption. apply IH; [eapply proper_child; eassumption|assumption].
Qed.
Lemma under_app toc sub n p x : proper toc -> under toc sub n -> (under toc (sub ++ p) x <-> under n p x).
Proof.
  intros P U. induction U as [n|d l c q y I U IH]; [reflexivity|]. cbn [app]. specialize (IH (proper_child _ _ _ P I)). rewrite <- IH. split.
  - intros V. inversion V as [|? ? c' ? ? I' V' E E1]; subst. inversion P as [|? ? D _]; subst.
    assert (c' = c) as ->. { pose proof (find_child l c D I) as A. pose proof (find_child l c' D I') as B. replace (name c') with (name c) in B by congruence. congruence. }
    exact V'.
  - intros V. econstructor; eassumption.
Qed.
Lemma concat_last prefix p file : (exists q, p = q ++ [file])%list -> exists s, String.concat "/" (prefix :: p) = append s file.
Proof.
  intros [q ->]. revert prefix. induction q as [|y q IH]; intros prefix; cbn [app].
  - exists (append prefix "/"). cbn [String.concat]. rewrite app_assoc_s. reflexivity.
  - destruct (IH y) as [s E]. exists (append prefix (append "/" s)). cbn [String.concat] in *. rewrite E, !app_assoc_s. reflexivity.
Qed.
Lemma under_last n p file b : under n p (File file b) -> p = [] \/ exists q, (p = q ++ [file])%list.
Proof.
  intros U. remember (File file b) as x eqn:X. induction U as [n|d l c p x I U IH]; [auto|right]. subst x. destruct (IH eq_refl) as [->|[q ->]].
  - inversion U; subst. exists []. reflexivity.
  - exists (name c :: q). reflexivity.
Qed.

(* Offered is exactly: every public function on the root level of a module below the directory, wherever it is, with the import path of this module. *)
Theorem C117_offered : forall toc sub target d l f i, proper toc -> under toc sub (Dir d l) -> target <> "" ->
  (In (f, i) (offered toc sub target) <->
   exists p file body, under toc (sub ++ p) (File file body) /\ module file /\ In (Def f) body /\ public f /\ imports (String.concat "/" (target :: p)) i).
Proof.
  intros toc sub target d l f i P U N. unfold offered. pose proof U as W. apply walk_spec in W; [|exact P]. rewrite W. rewrite in_flat_map.
  assert (Key : forall p file body, under (Dir d l) p (File file body) -> module file -> exists s, String.concat "/" (target :: p) = append s ".py").
  { intros p file body V [[stem ->] _]. destruct (under_last _ _ _ _ V) as [->|Q]; [inversion V|]. destruct (concat_last target p _ Q) as [s ->]. exists (append s stem). symmetry. apply app_assoc_s. }
  split.
  - intros ([path body] & I & F). apply crawl_spec in I; [|exact N]. destruct I as (p & file & V & M & EP). exists p, file, body.
    unfold functions in F. cbn [fst snd] in F. apply in_flat_map in F. destruct F as ([g|] & G & F); [|destruct F]. destruct (String.prefix "_" g) eqn:E; [destruct F|]. destruct F as [F|[]]. injection F as -> <-.
    split; [apply (under_app toc sub (Dir d l) p _ P U); exact V|]. split; [exact M|]. split; [exact G|]. split; [intros X; apply prefix_spec in X; congruence|].
    destruct (Key p file body V M) as [s S]. unfold imports. rewrite EP in *. rewrite S in *. rewrite <- dots_spec, dots_app. change (dots ".py") with ".py". rewrite remove_spec. reflexivity.
  - intros (p & file & body & V & M & G & Q & I). apply (under_app toc sub (Dir d l) p _ P U) in V. exists (String.concat "/" (target :: p), body). split.
    + apply crawl_spec; [exact N|]. exists p, file. auto.
    + unfold functions. cbn [fst snd]. apply in_flat_map. exists (Def f). split; [exact G|]. destruct (String.prefix "_" f) eqn:E; [exfalso; apply Q; apply prefix_spec; exact E|].
      left. f_equal. destruct (Key p file body V M) as [s S]. unfold imports in I. rewrite S in *. rewrite <- dots_spec, dots_app in I. rewrite dots_app. change (dots ".py") with ".py" in *.
      rewrite <- I. apply remove_spec.
Qed.
Print Assumptions C117_offered.

Lemma concat_inj p : forall q, (forall x, In x p \/ In x q -> ~ In "/"%char (list_ascii_of_string x)) -> p <> [] -> q <> [] -> String.concat "/" p = String.concat "/" q -> p = q.
Proof.
  assert (cut : forall x y a b, ~ In "/"%char (list_ascii_of_string x) -> ~ In "/"%char (list_ascii_of_string y) -> append x (String "/" a) = append y (String "/" b) -> x = y /\ a = b).
  { induction x as [|c x IH]; intros [|d y] a b X Y E; cbn in *.
    - injection E as ->. auto.
    - injection E as <- _. exfalso. apply Y. left. reflexivity.
    - injection E as -> _. exfalso. apply X. left. reflexivity.
    - injection E as -> E. destruct (IH y a b ltac:(tauto) ltac:(tauto) E) as [-> ->]. auto. }
  assert (none : forall x y b, ~ In "/"%char (list_ascii_of_string x) -> x = append y (String "/" b) -> False).
  { intros x y b X ->. apply X. clear X. induction y as [|c y IH]; cbn; auto. }
  induction p as [|x p IH]; intros [|y q] S P Q E; try congruence.
  assert (X : ~ In "/"%char (list_ascii_of_string x)) by (apply S; left; left; reflexivity).
  assert (Y : ~ In "/"%char (list_ascii_of_string y)) by (apply S; right; left; reflexivity).
  destruct p as [|x' p], q as [|y' q]; cbn [String.concat append] in E.
  - congruence.
  - destruct (none _ _ _ X E).
  - destruct (none _ _ _ Y (eq_sym E)).
  - apply cut in E; [|exact X|exact Y]. destruct E as [-> E]. f_equal. apply IH; [|discriminate|discriminate|exact E]. intros z [Z|Z]; apply S; [left|right]; right; exact Z.
Qed.
Lemma under_names n p x : proper n -> under n p x -> forall y, In y p -> ~ In "/"%char (list_ascii_of_string y).
Proof.
  intros P U. induction U as [n|d l c p x I U IH]; intros y Y; [destruct Y|]. inversion P as [|? ? _ H]; subst. destruct Y as [<-|Y]; [apply H; exact I|]. apply IH; [apply H; exact I|exact Y].
Qed.
Lemma crawl_once n : proper n -> forall prefix, prefix <> "" -> NoDup (map fst (crawl prefix n)).
Proof.
  induction n as [x b|d l IH] using node_ind2; intros P prefix N; cbn [crawl].
  - destruct (examined x); repeat constructor. intros [].
  - inversion P as [|? ? D H]; subst. clear P. induction l as [|c l IHl]; [constructor|]. cbn [flat_map]. rewrite map_app. cbn in D. inversion D as [|? ? D1 D2]; subst.
    fold (step_path prefix (name c)). pose proof (proj2 (step_nonempty prefix (name c) N)) as NC.
    assert (R : NoDup (map fst (flat_map (fun c => crawl (step_path prefix (name c)) c) l))).
    { apply IHl; [intros c' I; apply IH; right; exact I|exact D2|intros c' I; apply H; right; exact I]. }
    assert (L : NoDup (map fst (crawl (step_path prefix (name c)) c))) by (apply IH; [left; reflexivity|apply H; left; reflexivity|exact NC]).
    assert (A : forall z, In z (map fst (crawl (step_path prefix (name c)) c)) -> ~ In z (map fst (flat_map (fun c => crawl (step_path prefix (name c)) c) l))).
    { intros z Z1 Z2. apply in_map_iff in Z1. destruct Z1 as ([z1 b1] & E1 & Z1). apply in_map_iff in Z2. destruct Z2 as ([z2 b2] & E2 & Z2). cbn [fst] in E1, E2. subst z1 z2.
      apply in_flat_map in Z2. destruct Z2 as (c2 & I2 & Z2). apply crawl_spec in Z1; [|exact NC]. apply crawl_spec in Z2; [|exact (proj2 (step_nonempty prefix (name c2) N))].
      destruct Z1 as (p1 & f1 & U1 & _ & E1), Z2 as (p2 & f2 & U2 & _ & E2). rewrite concat_step in E1 by exact N. rewrite concat_step in E2 by exact N. rewrite E1 in E2.
      change (append prefix (append "/" (String.concat "/" (name c :: p1))) = append prefix (append "/" (String.concat "/" (name c2 :: p2)))) in E2.
      apply app_inv_head_s in E2. apply app_inv_head_s in E2. apply concat_inj in E2; [|..|discriminate|discriminate].
      - apply D1. injection E2 as E2 _. rewrite E2. apply in_map. exact I2.
      - intros y [[<-|Y]|[<-|Y]]; [apply H; left; reflexivity| |apply H; right; exact I2|].
        + exact (under_names c p1 _ (proj1 (H c (or_introl eq_refl))) U1 y Y).
        + exact (under_names c2 p2 _ (proj1 (H c2 (or_intror I2))) U2 y Y). }
    clear IHl IH H D. induction (map fst (crawl (step_path prefix (name c)) c)) as [|z zs IHz]; [exact R|]. cbn [app]. inversion L as [|? ? L1 L2]; subst. constructor.
    + rewrite in_app_iff. intros [Z|Z]; [exact (L1 Z)|]. exact (A z (or_introl eq_refl) Z).
    + apply IHz; [exact L2|]. intros z' I. apply A. right. exact I.
Qed.
(* No file is examined twice. *)
Theorem C117_once : forall toc sub target n, proper toc -> under toc sub n -> target <> "" -> walk toc sub = Some n /\ NoDup (map fst (crawl target n)).
Proof.
  intros toc sub target n P U N. split; [apply walk_spec; assumption|]. apply crawl_once; [|exact N]. induction U as [n|d l c p x I U IH]; [exact P|]. apply IH. exact (proper_child _ _ _ P I).
Qed.
Print Assumptions C117_once.

(* A directory which does not exist offers nothing, silently. *)
Theorem C117_missing : forall toc sub target, proper toc -> (forall n, ~ under toc sub n) -> offered toc sub target = [].
Proof. intros toc sub target P M. unfold offered. destruct (walk toc sub) as [n|] eqn:W; [|reflexivity]. apply walk_spec in W; [|exact P]. destruct (M n W). Qed.
Print Assumptions C117_missing.

Definition lib : node :=
  Dir "toc" [Dir "actions" [File "__init__.py" [Def "HIDDEN"]; File "amp.py" [Def "AMP"; Other; Def "_helper"];
    Dir "looper" [File "rec.py" [Def "REC"]; File "readme.txt" [Def "NO"]]]; Dir "mappings" [File "rig.py" [Def "RIG"]]].
Example ex_offer : offered lib ["actions"] "pyswitch/clients/kemper/actions" =
    [("AMP", "pyswitch.clients.kemper.actions.amp"); ("REC", "pyswitch.clients.kemper.actions.looper.rec")] /\
  proper lib /\ under lib ["actions"] (Dir "actions" [File "__init__.py" [Def "HIDDEN"]; File "amp.py" [Def "AMP"; Other; Def "_helper"]; Dir "looper" [File "rec.py" [Def "REC"]; File "readme.txt" [Def "NO"]]]) /\
  offered lib ["callbacks"] "x" = [].
Proof.
  split; [vm_compute; reflexivity|]. split.
  - unfold lib. repeat (first [apply PFile|apply PDir]; [cbn; repeat constructor; cbn; intuition discriminate|]; cbn [In]; intros c I).
    repeat (destruct I as [<-|I]; [split; [|cbn; intuition discriminate]; first [apply PFile|apply PDir; [cbn; repeat constructor; cbn; intuition discriminate|cbn [In]; intros c I]]|]); try contradiction;
    repeat (destruct I as [<-|I]; [split; [|cbn; intuition discriminate]; first [apply PFile|apply PDir; [cbn; repeat constructor; cbn; intuition discriminate|cbn [In]; intros c I]]|]); try contradiction;
    repeat (destruct I as [<-|I]; [split; [|cbn; intuition discriminate]; first [apply PFile|apply PDir; [cbn; repeat constructor; cbn; intuition discriminate|cbn [In]; intros c I]]|]); contradiction.
  - split; [|vm_compute; reflexivity]. unfold lib. match goal with |- under _ _ ?x => apply (There "toc" _ x []); [left; reflexivity|apply Here] end.
Qed.
