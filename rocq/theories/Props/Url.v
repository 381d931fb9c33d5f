(* C95: opening a configuration by its name opens this configuration. *)
From Coq Require Import String Ascii.
From Verif.Lib Require Import Base.
From Verif.Model Require Import Url.
From Verif.Spec Require Import Url.
Open Scope string_scope.
Local Open Scope list_scope.
Local Open Scope nat_scope.

Lemma app_assoc' (a b c : string) : ((a ++ b) ++ c = a ++ (b ++ c))%string.
Proof. induction a; cbn; congruence. Qed.
Lemma app_nil' (a : string) : (a ++ "" = a)%string. Proof. induction a; cbn; congruence. Qed.
Lemma mem_has c s : mem c s = true <-> has c s.
Proof. unfold has. induction s as [|d s IH]; cbn; [intuition discriminate|]. rewrite orb_true_iff, IH. split; intros [H|H]; auto; [left; symmetry; apply Ascii.eqb_eq, H|left; apply Ascii.eqb_eq; congruence]. Qed.
Lemma chars_app a b : chars (a ++ b) = chars a ++ chars b. Proof. induction a; cbn; congruence. Qed.
Lemma has_app c a b : has c (a ++ b) <-> has c a \/ has c b. Proof. unfold has. rewrite chars_app. apply in_app_iff. Qed.

Lemma encode_app a b : encode (a ++ b) = (encode a ++ encode b)%string.
Proof. induction a as [|c a IH]; cbn; [reflexivity|]. rewrite IH, app_assoc'. reflexivity. Qed.
(* A character is escaped into three, all of them harmless *)
Definition harmless (c : ascii) : bool := Ascii.eqb c "%" || range "0" "9" c || range "A" "F" c.
Lemma escape_ok c : exists h l a b, escape c = String "%" (String h (String l "")) /\ hex h = Some a /\ hex l = Some b /\ ascii_of_nat (16 * a + b) = c /\ harmless h = true /\ harmless l = true.
Proof. exists (digit (nat_of_ascii c / 16)), (digit (nat_of_ascii c mod 16)), (nat_of_ascii c / 16), (nat_of_ascii c mod 16). split; [reflexivity|]. destruct c as [[] [] [] [] [] [] [] []]; repeat split. Qed.
Lemma percent_escaped : unescaped "%" = false. Proof. reflexivity. Qed.
Lemma decode_encode keep s : (forall c, keep c = true -> unescaped c = true) -> decode keep (encode s) = Some s.
Proof.
  intros K. induction s as [|c s IH]; [reflexivity|]. cbn [encode]. destruct (unescaped c) eqn:U.
  - cbn [String.append decode]. destruct (Ascii.eqb c "%") eqn:E; [apply Ascii.eqb_eq in E as ->; discriminate U|]. rewrite IH. reflexivity.
  - destruct (escape_ok c) as (h & l & a & b & -> & Hh & Hl & E & _ & _). cbn [String.append decode]. rewrite Hh, Hl, IH. change (Ascii.eqb "%" "%") with true. cbv beta iota zeta. rewrite E.
    destruct (keep c) eqn:Kc; [rewrite (K c Kc) in U; discriminate U|reflexivity].
Qed.
Lemma reserved_unescaped c : reserved c = true -> unescaped c = true.
Proof. intros H. unfold unescaped. rewrite H. apply orb_true_r. Qed.
(* encodeURI and decodeURI are inverse to each other for all texts *)
Theorem C95_round_trip s : decode_uri (encode s) = Some s.
Proof. apply decode_encode, reserved_unescaped. Qed.
Print Assumptions C95_round_trip.

(* Reserved characters are in the encoded text if and only if they are in the text *)
Lemma encode_has c s : unescaped c = true -> harmless c = false -> (has c (encode s) <-> has c s).
Proof.
  intros U N. unfold has. induction s as [|d s IH]; [reflexivity|]. cbn [encode chars]. rewrite chars_app, in_app_iff, IH. destruct (unescaped d) eqn:D; [cbn; tauto|].
  destruct (escape_ok d) as (h & l & _ & _ & -> & _ & _ & _ & Hh & Hl). cbn. split; [|intros [->|H]; [congruence|auto]].
  intros [[H|[H|[H|[]]]]|H]; auto; subst c; [discriminate N|congruence..].
Qed.
Lemma spaces_id s : ~ has "+" s -> spaces s = s.
Proof. unfold has. induction s as [|c s IH]; intros H; [reflexivity|]. cbn in *. destruct (Ascii.eqb c "+") eqn:E; [apply Ascii.eqb_eq in E as ->; destruct H; auto|]. rewrite IH; [reflexivity|tauto]. Qed.
Lemma sammy_encode s : ~ has "+" s -> sammy_decode (encode s) = Some s.
Proof. intros H. unfold sammy_decode. rewrite spaces_id; [apply decode_encode; discriminate|]. rewrite encode_has; [exact H|reflexivity..]. Qed.
Lemma routable_id s : ~ has "?" s -> routable s = s.
Proof. unfold has. induction s as [|c s IH]; intros H; [reflexivity|]. cbn in *. destruct (Ascii.eqb c "?") eqn:E; [apply Ascii.eqb_eq in E as ->; destruct H; auto|]. cbn [andb]. rewrite IH; [reflexivity|tauto]. Qed.

Lemma mem_app c a b : mem c (a ++ b) = mem c a || mem c b.
Proof. induction a as [|d a IH]; cbn; [reflexivity|]. rewrite IH. apply orb_assoc. Qed.
Lemma routable_hash base s : ~ has "?" s -> routable (base ++ String "#" s) = (base ++ String "#" s)%string.
Proof.
  intros H. induction base as [|c base IH].
  - apply routable_id. unfold has in *. cbn. intros [X|X]; [discriminate X|exact (H X)].
  - cbn [String.append routable]. rewrite IH, mem_app. cbn [mem]. rewrite Ascii.eqb_refl, orb_true_r. cbn [negb]. rewrite andb_false_r. reflexivity.
Qed.

(* Text at the end *)
Lemma ends_app p base s : ~ has "#" base -> ends (String "#" p) (base ++ s) = ends (String "#" p) s.
Proof.
  unfold has. induction base as [|c base IH]; intros H; [reflexivity|]. cbn [String.append ends]. rewrite IH by (cbn in H; tauto). cbn [String.eqb]. destruct (Ascii.eqb c "#") eqn:E; [apply Ascii.eqb_eq in E as ->; destruct H; left; reflexivity|reflexivity].
Qed.
Lemma ends_none p s : ~ has "#" s -> ends (String "#" p) s = false.
Proof. intros H. rewrite <- (app_nil' s), ends_app by exact H. reflexivity. Qed.
Lemma encode_inj a b : encode a = encode b -> a = b.
Proof. intros H. pose proof (C95_round_trip a) as Ha. rewrite H, C95_round_trip in Ha. congruence. Qed.
Lemma hash_free c s : harmless c = true -> String.eqb (String c s) (String "#" s) = false.
Proof. intros H. cbn. destruct (Ascii.eqb c "#") eqn:E; [apply Ascii.eqb_eq in E as ->; discriminate H|reflexivity]. Qed.
Lemma ends_encode p s : encode p = p -> ends (String "#" p) (encode s) = ends (String "#" p) s.
Proof.
  intros P. induction s as [|c s IH]; [reflexivity|]. cbn [encode]. destruct (unescaped c) eqn:U.
  - cbn [String.append ends]. rewrite IH. f_equal. cbn [String.eqb]. destruct (Ascii.eqb c "#"); [|reflexivity]. destruct (String.eqb_spec s p) as [->|N].
    + rewrite P. apply String.eqb_refl.
    + apply String.eqb_neq. intros E. apply N, encode_inj. congruence.
  - destruct (escape_ok c) as (h & l & _ & _ & -> & _ & _ & _ & Hh & Hl). rewrite ends_app.
    + rewrite IH. cbn [ends String.eqb]. destruct (Ascii.eqb c "#") eqn:E; [apply Ascii.eqb_eq in E as ->; discriminate U|reflexivity].
    + unfold has. cbn. intros [E|[E|[E|[]]]]; [discriminate E|subst; discriminate..].
Qed.
Lemma ends_here p s : ends p (s ++ p) = true.
Proof. induction s as [|c s IH]; cbn; [|rewrite IH; apply orb_true_r]. destruct p; cbn; [reflexivity|]. rewrite Ascii.eqb_refl, String.eqb_refl. reflexivity. Qed.

Lemma ends_split p s : ends p s = true -> exists d, s = (d ++ p)%string.
Proof.
  induction s as [|c s IH]; cbn [ends]; intros H; apply orb_true_iff in H as [H|H]; [apply String.eqb_eq in H as <-; exists ""; reflexivity|discriminate H|apply String.eqb_eq in H as <-; exists ""; reflexivity|].
  apply IH in H as [d ->]. exists (String c d). reflexivity.
Qed.

(* The first occurrence *)
Lemma after_app p base s : ~ has "#" base -> after (String "#" p) (base ++ s) = after (String "#" p) s.
Proof.
  unfold has. induction base as [|c base IH]; intros H; [reflexivity|]. cbn [String.append after]. rewrite IH by (cbn in H; tauto). cbn [prefix].
  destruct (ascii_dec "#" c) as [<-|N]; [destruct H; left; reflexivity|reflexivity].
Qed.
Lemma after_none p s : ~ has "#" s -> after (String "#" p) s = None.
Proof. intros H. rewrite <- (app_nil' s), after_app by exact H. reflexivity. Qed.
Lemma prefix_app p s : prefix p (p ++ s) = true.
Proof. induction p as [|c p IH]; [destruct s; reflexivity|]. cbn. destruct (ascii_dec c c); [exact IH|congruence]. Qed.
Lemma substring_all s : substring 0 (String.length s) s = s.
Proof. induction s as [|c s IH]; cbn; [reflexivity|]. rewrite IH. reflexivity. Qed.
Lemma substring_app p s : substring (String.length p) (String.length s) (p ++ s) = s.
Proof. induction p as [|c p IH]; cbn; [apply substring_all|exact IH]. Qed.
Lemma length_app' a b : String.length (a ++ b) = String.length a + String.length b. Proof. induction a; cbn; congruence. Qed.
Lemma after_here p s : after p (p ++ s) = Some s.
Proof.
  assert (forall x, prefix p x = true -> after p x = Some (substring (String.length p) (String.length x - String.length p) x)) as H by (intros x E; destruct x; cbn [after]; rewrite E; reflexivity).
  rewrite H by apply prefix_app. f_equal. rewrite length_app'. replace (String.length p + String.length s - String.length p) with (String.length s) by lia. apply substring_app.
Qed.
(* Not in a text which begins with another route *)
Lemma after_other p k s : prefix p (k ++ s) = false -> ~ has "#" k -> ~ has "#" s -> prefix (String "#" p) (String "#" (k ++ s)) = false -> after (String "#" p) (String "#" (k ++ s)) = None.
Proof. intros _ K S P. cbn [after]. rewrite P. apply after_none. rewrite has_app. tauto. Qed.

(* What is opened, for a route k without special characters *)
Lemma linked base k name : page base -> encode (encode k) = k -> ~ has "?" k -> ~ has "?" name -> routable (link base (encode (k ++ name))) = (base ++ "#" ++ k ++ encode (encode name))%string.
Proof.
  intros H K KQ N. unfold link. rewrite !encode_app, K. apply routable_hash. rewrite !has_app, !encode_has by reflexivity. tauto.
Qed.

(* A controller is opened by the name of its port. The name must not contain a plus sign or a question mark, and must not end like the home page (see below) *)
Theorem C95_controller_partial base port : page base -> ~ has "+" port -> ~ has "?" port -> (forall d, port <> (d ++ "#")%string /\ port <> (d ++ "#/")%string) -> port <> "pyswitch-default" ->
  open (controller_link base port) = Controller port.
Proof.
  intros P N Q E D. unfold open, controller_link. rewrite (linked base "controller/" port P) by (auto; unfold has; cbn; intuition discriminate).
  assert (forall p, ends p port = true -> exists d, port = (d ++ p)%string) as Ends.
  { intros p. apply ends_split. }
  assert (forall p, encode p = p -> (forall d, port <> (d ++ String "#" p)%string) -> ends (String "#" p) (base ++ "#" ++ "controller/" ++ encode (encode port)) = (if String.eqb p ("controller/" ++ encode (encode port)) then true else false)) as Noend.
  { intros p Ep F. rewrite ends_app by apply P. change ("#" ++ "controller/" ++ encode (encode port))%string with (String "#" ("controller/" ++ encode (encode port))).
    remember ("controller/" ++ encode (encode port))%string as x eqn:X. cbn [ends String.eqb]. change (Ascii.eqb "#" "#") with true. cbv iota. rewrite X at 2. rewrite String.eqb_sym.
    rewrite (ends_app p "controller/"), ends_encode, ends_encode by (assumption || (unfold has; cbn; intuition discriminate)).
    destruct (ends (String "#" p) port) eqn:Y; [apply Ends in Y as [d Y]; destruct (F d Y)|]. rewrite orb_false_r. destruct (String.eqb p _); reflexivity. }
  rewrite (Noend ""), (Noend "/") by (reflexivity || (intros d; apply E)).
  assert (String.eqb "" ("controller/" ++ encode (encode port)) = false) as -> by reflexivity. assert (String.eqb "/" ("controller/" ++ encode (encode port)) = false) as -> by reflexivity.
  rewrite after_app by apply P. change ("#" ++ "controller/" ++ encode (encode port))%string with ("#controller/" ++ encode (encode port))%string.
  rewrite after_here. unfold splat. rewrite sammy_encode by (rewrite encode_has; [exact N|reflexivity..]). unfold controller_route. rewrite C95_round_trip.
  destruct (String.eqb_spec port "pyswitch-default"); [contradiction|reflexivity].
Qed.
Print Assumptions C95_controller_partial.
(* The same with the condition all theorems below have *)
Corollary controller_plain base port : page base -> plain port -> port <> "pyswitch-default" -> open (controller_link base port) = Controller port.
Proof.
  intros P (N & Q & H) D. apply C95_controller_partial; auto. intros d. split; intros ->; apply H; rewrite has_app; right; left; reflexivity.
Qed.

(* The other routes: none of the ones before applies *)
Lemma ends_route p k s : ~ has "#" s -> ~ has "#" k -> ends (String "#" p) ("#" ++ k ++ s) = String.eqb (k ++ s) p.
Proof. intros S K. change ("#" ++ k ++ s)%string with (String "#" (k ++ s)). cbn [ends String.eqb]. change (Ascii.eqb "#" "#") with true. cbv iota. rewrite ends_none; [apply orb_false_r|]. rewrite has_app. tauto. Qed.
Lemma after_route p k s : ~ has "#" s -> ~ has "#" k -> prefix p (k ++ s) = false -> after (String "#" p) ("#" ++ k ++ s) = None.
Proof.
  intros S K P. change ("#" ++ k ++ s)%string with (String "#" (k ++ s)). cbn [after]. assert (prefix (String "#" p) (String "#" (k ++ s)) = false) as -> by (cbn [prefix]; destruct (ascii_dec "#" "#"); [exact P|reflexivity]).
  apply after_none. rewrite has_app. tauto.
Qed.
Lemma same_route k s : after (String "#" k) ("#" ++ k ++ s) = Some s.
Proof. apply (after_here (String "#" k) s). Qed.
Ltac no_special := unfold has; cbn; intuition discriminate.
Ltac route k P H :=
  rewrite (linked _ k _ P) by (auto; no_special); match type of P with page ?b => repeat rewrite (ends_app _ b) by apply P end; match type of P with page ?b => repeat rewrite (after_app _ b) by apply P end;
  match goal with |- context [encode (encode ?n)] => assert (~ has "#" (encode (encode n))) as H by (rewrite !encode_has by reflexivity; assumption) end;
  repeat rewrite (ends_route _ k) by (exact H || no_special);
  repeat match goal with |- context [String.eqb (k ++ ?s) ?p] => change (String.eqb (k ++ s) p) with false end.

Theorem C95_default base : page base -> open (controller_link base "pyswitch-default") = Default.
Proof.
  intros P. unfold open, controller_link. assert (~ has "#" "pyswitch-default") by no_special. assert (~ has "?" "pyswitch-default") by no_special. route "controller/" P H1. rewrite same_route. reflexivity.
Qed.
Print Assumptions C95_default.

Lemma last_part_ok acc s : ~ has "/" acc -> is_last (acc ++ s) (last_part acc s) \/ (exists d n, s = (d ++ "/" ++ n)%string /\ ~ has "/" n /\ last_part acc s = n).
Proof.
  revert acc. induction s as [|c s IH]; intros acc A; [left; cbn; rewrite app_nil'; split; auto|]. cbn [last_part]. destruct (Ascii.eqb c "/") eqn:E.
  - apply Ascii.eqb_eq in E as ->. right. destruct (IH "") as [[N [X|[d X]]]|(d & n & -> & N & X)].
    + intros [].
    + exists "", (last_part "" s). cbn in X. rewrite <- X at 1. auto.
    + cbn in X. exists (String "/" d), (last_part "" s). rewrite X at 1. auto.
    + exists (String "/" d), n. auto.
  - destruct (IH (acc ++ String c "")%string) as [H|(d & n & -> & N & X)].
    + rewrite has_app. intros [H|[H|[]]]; [auto|]. subst c. discriminate E.
    + left. rewrite app_assoc' in H. exact H.
    + right. exists (String c d), n. auto.
Qed.
Lemma last_part_is s : is_last s (last_part "" s).
Proof. destruct (last_part_ok "" s) as [H|(d & n & E & N & X)]; [intros []|exact H|]. rewrite X. split; [exact N|]. right. exists d. exact E. Qed.
(* Examples and templates: the files are loaded from the folder which has been chosen, and the title is the name of the folder *)
Theorem C95_example_partial base path : page base -> plain path -> exists t u, open (example_link base path) = Web t u /\ u = encode ("examples/" ++ path) /\ decode_uri u = Some ("examples/" ++ path)%string /\ is_last ("examples/" ++ path) t.
Proof.
  intros P (N & Q & H). unfold open, example_link. route "example/" P X. rewrite (after_route "controller/" "example/"), (same_route "example/") by (exact X || no_special || reflexivity).
  unfold splat. rewrite sammy_encode by (rewrite encode_has; [exact N|reflexivity..]). unfold web_route, web. rewrite C95_round_trip. change ("examples/" ++ encode path)%string with (encode "examples/" ++ encode path)%string. rewrite <- encode_app, C95_round_trip.
  do 2 eexists. split; [reflexivity|]. split; [reflexivity|]. split; [apply C95_round_trip|apply last_part_is].
Qed.
Print Assumptions C95_example_partial.
Theorem C95_template_partial base path : page base -> plain path -> exists t u, open (template_link base path) = Web t u /\ u = encode ("templates/" ++ path) /\ decode_uri u = Some ("templates/" ++ path)%string /\ is_last ("templates/" ++ path) t.
Proof.
  intros P (N & Q & H). unfold open, template_link. route "template/" P X. rewrite (after_route "controller/" "template/"), (after_route "example/" "template/"), (same_route "template/") by (exact X || no_special || reflexivity).
  unfold splat. rewrite sammy_encode by (rewrite encode_has; [exact N|reflexivity..]). unfold web_route, web. rewrite C95_round_trip. change ("templates/" ++ encode path)%string with (encode "templates/" ++ encode path)%string. rewrite <- encode_app, C95_round_trip.
  do 2 eexists. split; [reflexivity|]. split; [reflexivity|]. split; [apply C95_round_trip|apply last_part_is].
Qed.
Print Assumptions C95_template_partial.
Lemma decode_id keep s : ~ has "%" s -> decode keep s = Some s.
Proof. unfold has. induction s as [|c s IH]; intros H; [reflexivity|]. cbn in *. destruct (Ascii.eqb c "%") eqn:E; [apply Ascii.eqb_eq in E as ->; destruct H; auto|]. rewrite IH; [reflexivity|tauto]. Qed.
(* Presets: names with percent signs must be excluded, too *)
Lemma decode_kept s : kept_escapes s -> decode reserved s = Some s.
Proof.
  induction 1 as [|c s N _ IH|e s I _ IH]; [reflexivity| |].
  - cbn [decode]. destruct (Ascii.eqb c "%") eqn:E; [apply Ascii.eqb_eq in E; contradiction|]. rewrite IH. reflexivity.
  - cbn [In] in I. repeat (destruct I as [<-|I]; [cbn [String.append decode]; rewrite IH; reflexivity|]). destruct I.
Qed.
Theorem C95_preset_partial base id : page base -> plain id -> kept_escapes id -> open (preset_link base id) = Preset id.
Proof.
  intros P (N & Q & H) D. unfold open, preset_link. route "preset/" P X.
  rewrite (after_route "controller/" "preset/"), (after_route "example/" "preset/"), (after_route "template/" "preset/"), (same_route "preset/") by (exact X || no_special || reflexivity).
  unfold splat. rewrite sammy_encode by (rewrite encode_has; [exact N|reflexivity..]). unfold preset_route. rewrite C95_round_trip. unfold decode_uri. rewrite decode_kept by exact D. reflexivity.
Qed.
Print Assumptions C95_preset_partial.
Theorem C95_folder base : page base -> open (folder_link base) = Folder.
Proof.
  intros P. unfold open, folder_link, link. change (encode "localfolder") with "localfolder". change ("#" ++ "localfolder")%string with (String "#" "localfolder"). rewrite routable_hash by no_special.
  match type of P with page ?b => repeat rewrite (ends_app _ b) by apply P end; match type of P with page ?b => repeat rewrite (after_app _ b) by apply P end. reflexivity.
Qed.
Print Assumptions C95_folder.
(* Without a configuration in the URL, controllers are searched for *)
Theorem C95_home base : page base -> open (base ++ "#/") = Scan.
Proof. intros P. unfold open. change "#/" with (String "#" "/"). rewrite routable_hash by no_special. match type of P with page ?b => repeat rewrite (ends_app _ b) by apply P end. reflexivity. Qed.
Print Assumptions C95_home.

(* All presets can be opened: false. Plus signs become spaces *)
Theorem C95_plus_refuted : exists id, open (preset_link "/" id) = Preset "A B" /\ id = "A+B".
Proof. eexists. split; [|reflexivity]. vm_compute. reflexivity. Qed.
Print Assumptions C95_plus_refuted.
(* What comes after a question mark is ignored *)
Theorem C95_question_refuted : exists id, open (preset_link "/" id) = Preset "Rock" /\ id = "Rock?".
Proof. eexists. split; [|reflexivity]. vm_compute. reflexivity. Qed.
Print Assumptions C95_question_refuted.
(* Names which end with a hash mark lead to the scan for controllers *)
Theorem C95_hash_refuted : open (preset_link "/" "Song in C#") = Scan /\ open (controller_link "/" "Port#") = Scan.
Proof. vm_compute. auto. Qed.
Print Assumptions C95_hash_refuted.
(* Presets are decoded once too often: a percent sign is an error, or another preset is opened *)
Theorem C95_percent_refuted : open (preset_link "/" "100%") = Fails /\ open (preset_link "/" "Solo%20A") = open (preset_link "/" "Solo A").
Proof. vm_compute. auto. Qed.
Print Assumptions C95_percent_refuted.
(* None of the restrictions of the theorem about presets can be dropped *)
Theorem C95_presets_refuted : ~ (forall id id', open (preset_link "/" id) = open (preset_link "/" id') -> id = id').
Proof. intros H. assert ("Solo%20A" = "Solo A") as E by (apply H; apply C95_percent_refuted). discriminate E. Qed.
Print Assumptions C95_presets_refuted.

Example ex_url : controller_link "/" "Port #1: 50%" = "/#controller/Port%2520#1:%252050%2525" /\ open (controller_link "/" "Port #1: 50%") = Controller "Port #1: 50%" /\
  open (example_link "/" "Kemper/Big Rig") = Web "Big Rig" "examples/Kemper/Big%20Rig" /\ plain "Kemper/Big Rig" /\ page "/?test=1" /\ open (preset_link "/?test=1" "Verse & Chorus") = Preset "Verse & Chorus" /\
  kept_escapes "Verse%2FChorus" /\ open (preset_link "/" "Verse%2FChorus") = Preset "Verse%2FChorus".
Proof.
  split; [reflexivity|]. split; [reflexivity|]. split; [reflexivity|]. split; [unfold plain; split; [|split]; no_special|]. split; [unfold page; no_special|]. split; [reflexivity|]. split; [|reflexivity].
  do 5 (apply ke_char; [discriminate|]). apply (ke_escape "%2F"); [cbn; auto 20|]. do 6 (apply ke_char; [discriminate|]). constructor.
Qed.
