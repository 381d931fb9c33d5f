(* Lemmas for C87, C88. *)
From Coq Require Import String QArith.
From Verif.Lib Require Import Base.
From Verif.Model Require Import Storage.
From Verif.Spec Require Import Storage.
Open Scope string_scope.
Open Scope Z_scope.
Local Open Scope list_scope.

Lemma field_put k v o x : field x (put k v o) = if String.eqb x k then Some v else field x o.
Proof.
  induction o as [|[y w] o IH]; cbn [put field]; [reflexivity|]. destruct (String.eqb_spec k y) as [->|N]; cbn [field].
  - destruct (String.eqb x y); reflexivity.
  - rewrite IH. destruct (String.eqb_spec x y) as [->|]; [|reflexivity]. destruct (String.eqb_spec y k); [congruence|reflexivity].
Qed.
Lemma local_get_set sid key v st sid' key' : local_get sid' key' (local_set sid key v st) = if String.eqb sid' sid && String.eqb key' key then v else local_get sid' key' st.
Proof.
  unfold local_get, local_set, local_object. rewrite field_put. destruct (String.eqb_spec sid' sid) as [->|]; cbn [andb]; [|reflexivity]. rewrite field_put. destruct (String.eqb key' key); reflexivity.
Qed.

(* the names of the places *)
Lemma append_assoc a b c : String.append (String.append a b) c = String.append a (String.append b c).
Proof. induction a as [|x a IH]; cbn; [reflexivity|]. rewrite IH. reflexivity. Qed.
Lemma presets_apart v id : local_id (Some v) id <> PRESETS.
Proof.
  unfold local_id, PRESETS, local_id. rewrite append_assoc. intros E. change (String.append "pyswitch-" (String.append v (String.append "-" id)) = String.append "pyswitch-" "presets") in E. cbn [String.append] in E. injection E as E.
  do 7 (destruct v as [|? v]; cbn [String.append] in E; [discriminate E|apply (f_equal (fun s => match s with String _ s => s | "" => "" end)) in E; cbn beta iota in E]). destruct v; discriminate E.
Qed.

(* ---- presets ---- *)

Lemma read_written l : map read_entry (map entry l) = l.
Proof. rewrite map_map. rewrite <- (map_id l) at 2. apply map_ext. intros [i d]. reflexivity. Qed.
Lemma presets_written l st : presets (presets_write l st) = l.
Proof. unfold presets, presets_write. rewrite local_get_set, !String.eqb_refl. cbn [andb]. apply read_written. Qed.
Definition look (id : string) (l : list (string * json)) : json := match find (fun e => String.eqb (fst e) id) l with Some e => snd e | None => JNull end.
Definition without (id : string) (l : list (string * json)) : list (string * json) := filter (fun e => negb (String.eqb (fst e) id)) l.
Lemma look_without id x l : look x (without id l) = if String.eqb x id then JNull else look x l.
Proof.
  unfold look. induction l as [|[i d] l IH]; cbn [without filter find fst]; [destruct (String.eqb x id); reflexivity|]. fold (without id l). destruct (String.eqb_spec i id) as [->|N]; cbn [negb].
  - rewrite IH. destruct (String.eqb_spec x id) as [->|N]; [reflexivity|]. destruct (String.eqb_spec id x); [congruence|reflexivity].
  - cbn [find fst]. destruct (String.eqb_spec i x) as [->|]; [|exact IH]. destruct (String.eqb_spec x id); [congruence|reflexivity].
Qed.
Lemma look_app x l e : look x (l ++ [e]) = match find (fun e => String.eqb (fst e) x) l with Some e => snd e | None => if String.eqb (fst e) x then snd e else JNull end.
Proof. unfold look. induction l as [|y l IH]; cbn [app find]; [destruct (String.eqb (fst e) x); reflexivity|]. destruct (String.eqb (fst y) x); [reflexivity|exact IH]. Qed.
Lemma find_without id l : find (fun e => String.eqb (fst e) id) (without id l) = None.
Proof. induction l as [|[i d] l IH]; cbn; [reflexivity|]. destruct (String.eqb i id) eqn:E; cbn; [exact IH|]. rewrite E. exact IH. Qed.
Lemma in_without id x l : In x (map fst (without id l)) <-> In x (map fst l) /\ x <> id.
Proof.
  induction l as [|[i d] l IH]; cbn [without filter map In fst]; [tauto|]. fold (without id l). destruct (String.eqb_spec i id) as [->|N]; cbn [negb map In fst]; rewrite IH; intuition congruence.
Qed.
Lemma get_set id d st x : preset_get x (preset_set id d st) = if String.eqb x id then d else preset_get x st.
Proof.
  unfold preset_get, preset_set. rewrite presets_written. fold (look x (without id (presets st) ++ [(id, d)])). fold (without id (presets st)). fold (look x (presets st)). fold (look x (without id (presets st) ++ [(id, d)])).
  rewrite look_app. cbn [fst snd]. destruct (String.eqb_spec x id) as [->|N].
  - rewrite find_without, String.eqb_refl. reflexivity.
  - pose proof (look_without id x (presets st)) as L. destruct (String.eqb_spec x id); [congruence|]. rewrite <- L. unfold look. destruct (String.eqb_spec id x); [congruence|]. reflexivity.
Qed.
Lemma ids_set id d st x : In x (preset_ids (preset_set id d st)) <-> In x (preset_ids st) \/ x = id.
Proof. unfold preset_ids, preset_set. rewrite presets_written, map_app, in_app_iff. fold (without id (presets st)). rewrite in_without. cbn [map In fst]. destruct (string_dec x id); intuition congruence. Qed.
Lemma get_delete id st x : preset_get x (preset_delete id st) = if String.eqb x id then JNull else preset_get x st.
Proof. unfold preset_get, preset_delete. rewrite presets_written. apply (look_without id x (presets st)). Qed.
Lemma ids_delete id st x : In x (preset_ids (preset_delete id st)) <-> In x (preset_ids st) /\ x <> id.
Proof. unfold preset_ids, preset_delete. rewrite presets_written. apply in_without. Qed.
Lemma presets_setting v i k x st : presets (local_set (local_id (Some v) i) k x st) = presets st.
Proof. unfold presets. rewrite local_get_set. destruct (String.eqb_spec PRESETS (local_id (Some v) i)) as [E|]; [symmetry in E; apply presets_apart in E; destruct E|reflexivity]. Qed.

Lemma new_name_in answers st n : new_name answers st = Some n -> exists before after, answers = map Some before ++ Some n :: after /\ n <> "" /\ Forall (fun m => m <> "" /\ preset_has m st = true) before /\ preset_has n st = false.
Proof.
  induction answers as [|[m|] answers IH]; cbn [new_name]; intros E; try discriminate E. destruct (String.eqb_spec m "") as [->|N]; [discriminate E|]. destruct (preset_has m st) eqn:H.
  - destruct (IH E) as [be [af [-> [A [B C]]]]]. exists (m :: be), af. repeat split; auto.
  - injection E as <-. exists [], answers. repeat split; auto.
Qed.
Lemma new_name_none answers st : new_name answers st = None -> exists before after, answers = map Some before ++ after /\ Forall (fun m => m <> "" /\ preset_has m st = true) before /\ (after = [] \/ hd None after = None \/ hd None after = Some "").
Proof.
  induction answers as [|[m|] answers IH]; cbn [new_name]; intros E.
  - exists [], []. auto.
  - destruct (String.eqb_spec m "") as [->|N]; [exists [], (Some "" :: answers); cbn; auto|]. destruct (preset_has m st) eqn:H; [|discriminate E]. destruct (IH E) as [be [af [-> [A B]]]]. exists (m :: be), af. repeat split; auto.
  - exists [], (None :: answers). cbn. auto.
Qed.

Lemma urun_snoc ops o : urun (ops ++ [o]) = ustep (urun ops) o. Proof. apply fold_left_app. Qed.
Lemma step_unchanged st o id : ~ names o id -> preset_get id (ustep st o) = preset_get id st /\ (In id (preset_ids (ustep st o)) <-> In id (preset_ids st)).
Proof.
  assert (forall j d, j <> id -> preset_get id (preset_set j d st) = preset_get id st /\ (In id (preset_ids (preset_set j d st)) <-> In id (preset_ids st))) as Q.
  { intros j d N. rewrite get_set, ids_set. destruct (String.eqb_spec id j); [congruence|]. intuition congruence. }
  destruct o as [answers a b|j c a b|j a b|j c|j [n|]|v i k x]; cbn [names ustep]; intros N; try tauto.
  - destruct (new_name answers st) as [n|] eqn:E; [|tauto]. apply Q. intros ->. apply N. apply new_name_in in E. destruct E as [be [af [-> _]]]. apply in_or_app. right. left. reflexivity.
  - destruct c; [|tauto]. apply Q. intros ->. apply N. auto.
  - apply Q. congruence.
  - destruct c; [|tauto]. rewrite get_delete, ids_delete. destruct (String.eqb_spec id j); [subst; destruct N; auto|]. intuition congruence.
  - destruct (String.eqb n ""); [tauto|]. rewrite get_set, ids_set, get_delete, ids_delete. destruct (String.eqb_spec id n); [subst; destruct N; auto|]. destruct (String.eqb_spec id j); [subst; destruct N; auto|]. intuition congruence.
  - unfold preset_get, preset_ids. rewrite presets_setting. tauto.
Qed.
Lemma keeps ops later id : (forall o, In o later -> ~ names o id) -> preset_get id (urun (ops ++ later)) = preset_get id (urun ops) /\ (In id (preset_ids (urun (ops ++ later))) <-> In id (preset_ids (urun ops))).
Proof.
  induction later as [|later o IH] using rev_ind_snoc; intros H; [rewrite app_nil_r; tauto|]. rewrite app_assoc, urun_snoc. destruct IH as [A B]; [intros x Hx; apply H, in_or_app; auto|].
  destruct (step_unchanged (urun (ops ++ later)) o id) as [C D]; [apply H, in_or_app; right; left; reflexivity|]. rewrite C, A. tauto.
Qed.
Lemma nodup_without id l : NoDup (map fst l) -> NoDup (map fst (without id l)).
Proof.
  induction l as [|[i d] l IH]; cbn [without filter map fst]; intros N; [constructor|]. inversion N; subst. fold (without id l). destruct (String.eqb i id); cbn [negb]; [auto|]. cbn [map fst]. constructor; [rewrite in_without; tauto|auto].
Qed.
Lemma nodup_snoc (l : list string) x : NoDup l -> ~ In x l -> NoDup (l ++ [x]).
Proof.
  induction l as [|y l IH]; cbn [app]; intros N H; [constructor; [intros []|constructor]|]. inversion N; subst. constructor; [rewrite in_app_iff; cbn; intros [?|[?|[]]]; [auto|subst; apply H; left; reflexivity]|]. apply IH; [auto|]. intros ?. apply H. right. auto.
Qed.
Lemma nodup_set id d st : NoDup (preset_ids st) -> NoDup (preset_ids (preset_set id d st)).
Proof. unfold preset_ids, preset_set. rewrite presets_written, map_app. intros N. cbn [map fst]. apply nodup_snoc; [apply nodup_without, N|]. fold (without id (presets st)). rewrite in_without. tauto. Qed.
Lemma nodup_delete id st : NoDup (preset_ids st) -> NoDup (preset_ids (preset_delete id st)).
Proof. unfold preset_ids, preset_delete. rewrite presets_written. apply nodup_without. Qed.
Lemma once ops : NoDup (preset_ids (urun ops)).
Proof.
  induction ops as [|ops o IH] using rev_ind_snoc; [constructor|]. rewrite urun_snoc. destruct o as [answers a b|j c a b|j a b|j c|j [n|]|v i k x]; cbn [ustep].
  - destruct (new_name answers (urun ops)); [apply nodup_set|]; exact IH.
  - destruct c; [apply nodup_set|]; exact IH.
  - apply nodup_set, IH.
  - destruct c; [apply nodup_delete|]; exact IH.
  - destruct (String.eqb n ""); [exact IH|]. apply nodup_set, nodup_delete, IH.
  - exact IH.
  - unfold preset_ids. rewrite presets_setting. exact IH.
Qed.
Lemma absent id st : ~ In id (preset_ids st) -> preset_get id st = JNull.
Proof.
  unfold preset_ids, preset_get. intros N. destruct (find (fun e => String.eqb (fst e) id) (presets st)) as [e|] eqn:E; [|reflexivity]. apply find_some in E. destruct E as [A B]. apply String.eqb_eq in B. destruct N. rewrite <- B. apply in_map, A.
Qed.
Lemma settings_apart st o v i k : ~ is_setting o -> local_get (local_id (Some v) i) k (ustep st o) = local_get (local_id (Some v) i) k st.
Proof.
  assert (forall l s, local_get (local_id (Some v) i) k (presets_write l s) = local_get (local_id (Some v) i) k s) as Q.
  { intros l s. unfold presets_write. rewrite local_get_set. destruct (String.eqb_spec (local_id (Some v) i) PRESETS) as [E|]; [apply presets_apart in E; destruct E|reflexivity]. }
  destruct o as [answers a b|j c a b|j a b|j c|j [n|]|v' i' k' x]; cbn [ustep is_setting]; intros N; try tauto.
  - destruct (new_name answers st); [apply Q|reflexivity].
  - destruct c; [apply Q|reflexivity].
  - apply Q.
  - destruct c; [apply Q|reflexivity].
  - destruct (String.eqb n ""); [reflexivity|]. unfold preset_set. rewrite Q. apply Q.
Qed.
