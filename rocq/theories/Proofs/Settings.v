(* Lemmas for C88. *)
From Coq Require Import String QArith.
From Verif.Lib Require Import Base.
From Verif.Model Require Import Storage.
From Verif.Spec Require Import Storage.
From Verif.Proofs Require Import Storage.
Open Scope string_scope.
Open Scope Z_scope.
Local Open Scope list_scope.

Definition mem (n : string) (l : list string) : bool := existsb (String.eqb n) l.
Lemma mem_in n l : mem n l = true <-> In n l.
Proof. unfold mem. rewrite existsb_exists. split; [intros [x [A B]]; apply String.eqb_eq in B; subst; exact A|intros H; exists n; split; [exact H|apply String.eqb_refl]]. Qed.
Lemma mem_not n l : mem n l = false <-> ~ In n l.
Proof. rewrite <- mem_in. destruct (mem n l); split; congruence. Qed.

(* ---- the data ---- *)

Definition typed (n : string) (v : json) : Prop := (In n numbers /\ exists q, v = JNum q) \/ (In n checkboxes /\ exists b, v = JBool b).
Definition Good (data : list (string * json)) : Prop := NoDup (map fst data) /\ Forall (fun e => typed (fst e) (snd e)) data.
Lemma put_keys k v o x : In x (map fst (put k v o)) <-> In x (map fst o) \/ x = k.
Proof.
  induction o as [|[y w] o IH]; cbn [put map fst In]; [intuition|]. destruct (String.eqb_spec k y) as [->|N]; cbn [map fst In]; [intuition|]. rewrite IH. intuition.
Qed.
Lemma put_good k v o : typed k v -> Good o -> Good (put k v o).
Proof.
  intros T [N F]. split.
  - clear F. induction o as [|[y w] o IH]; cbn [put map fst]; [constructor; [intros []|constructor]|]. cbn [map fst] in N. inversion N; subst. destruct (String.eqb_spec k y) as [->|Ne]; cbn [map fst]; [constructor; auto|].
    constructor; [|auto]. rewrite put_keys. intros [?| ->]; [auto|congruence].
  - clear N. induction F as [|[y w] o H F IH]; cbn [put]; [constructor; [exact T|constructor]|]. destruct (String.eqb_spec k y) as [->|Ne]; constructor; auto.
Qed.
Lemma config_get_set v d st : config_get v (config_set v d st) = d.
Proof. unfold config_get, config_set. rewrite local_get_set, !String.eqb_refl. reflexivity. Qed.
Lemma config_other v st u : proper v (SOther u) -> config_get v (ustep st u) = config_get v st.
Proof.
  intros P. unfold config_get. destruct u as [| | | | |v' i k x]; try (unfold SETTINGS; rewrite settings_apart by exact (fun H => H); reflexivity).
  cbn [ustep]. rewrite local_get_set. destruct (String.eqb_spec (SETTINGS v) (local_id (Some v') i)) as [E|]; [|reflexivity]. destruct (String.eqb_spec "config.py" k) as [<-|]; [|reflexivity]. cbn [proper] in P. destruct P. auto.
Qed.
Lemma srun_snoc v ops o : srun v (ops ++ [o]) = sstep v (srun v ops) o. Proof. apply fold_left_app. Qed.
Lemma good v ops : Forall (proper v) ops -> Good (config_get v (srun v ops)).
Proof.
  induction ops as [|ops o IH] using rev_ind_snoc; intros P; [split; constructor|]. apply Forall_app in P. destruct P as [P Po]. inversion Po; subst. specialize (IH P). rewrite srun_snoc. destruct o as [n [q|]|n b| |u]; cbn [sstep].
  - destruct (existsb (String.eqb n) numbers) eqn:E; [|exact IH]. apply mem_in in E. unfold set_attribute. rewrite config_get_set. apply put_good; [left; eauto|exact IH].
  - destruct H1.
  - destruct (existsb (String.eqb n) checkboxes) eqn:E; [|exact IH]. apply mem_in in E. unfold set_attribute. rewrite config_get_set. apply put_good; [right; eauto|exact IH].
  - rewrite config_get_set. split; constructor.
  - rewrite config_other by assumption. exact IH.
Qed.
Lemma field_in k o v : field k o = Some v -> In (k, v) o.
Proof. induction o as [|[y w] o IH]; cbn [field]; intros E; [discriminate E|]. destruct (String.eqb_spec k y) as [->|]; [injection E as ->; left; reflexivity|right; auto]. Qed.
Lemma field_none k o : field k o = None <-> ~ In k (map fst o).
Proof.
  induction o as [|[y w] o IH]; cbn [field map fst In]; [tauto|]. destruct (String.eqb_spec k y) as [->|]; [split; [discriminate|intros H; destruct H; auto]|]. rewrite IH. intuition congruence.
Qed.
Lemma attribute_typed data n : Good data -> In n options -> typed n (get_attribute data n).
Proof.
  intros [_ F] Hn. unfold get_attribute. destruct (field n data) as [v|] eqn:E.
  - apply field_in in E. rewrite Forall_forall in F. apply (F _ E).
  - clear - Hn. repeat (destruct Hn as [<-|Hn]; [vm_compute; first [left; split; [tauto|eexists; reflexivity]|right; split; [tauto|eexists; reflexivity]]|]). destruct Hn.
Qed.

(* ---- rendering ---- *)

Definition tokens (t : list piece) : list string := flat_map (fun p => match p with Token n => [n] | Entry _ _ _ => [] end) t.
Definition fill (f : string -> piece) (ks : list string) (t : list piece) : list piece := map (fun p => match p with Token n => if mem n ks then f n else p | _ => p end) t.
Lemma fill_nil f t : fill f [] t = t.
Proof. unfold fill. rewrite <- (map_id t) at 2. apply map_ext. intros [n|]; reflexivity. Qed.
Lemma fill_none f ks t : (forall n, In n (tokens t) -> ~ In n ks) -> fill f ks t = t.
Proof.
  induction t as [|p t IH]; cbn [fill map tokens flat_map]; intros H; [reflexivity|]. fold (fill f ks t). rewrite IH by (intros n Hn; apply H, in_or_app; right; exact Hn). destruct p as [n|]; [|reflexivity].
  replace (mem n ks) with false; [reflexivity|]. symmetry. apply mem_not, H. left. reflexivity.
Qed.
Lemma replace_fill f k t : NoDup (tokens t) -> replace_first k (f k) t = fill f [k] t.
Proof.
  induction t as [|[n|c n v] t IH]; cbn [replace_first fill map tokens flat_map app]; intros N; [reflexivity| |fold (fill f [k] t); rewrite <- IH by exact N; reflexivity].
  fold (fill f [k] t). inversion N; subst. unfold mem. cbn [existsb]. rewrite orb_false_r. destruct (String.eqb_spec k n) as [->|Ne].
  - rewrite String.eqb_refl. f_equal. symmetry. apply fill_none. intros m Hm [<-|[]]. auto.
  - destruct (String.eqb_spec n k); [congruence|]. rewrite IH by assumption. reflexivity.
Qed.
Definition entries (f : string -> piece) : Prop := forall n, exists c m v, f n = Entry c m v.
Lemma fill_tokens f ks t : entries f -> tokens (fill f ks t) = filter (fun n => negb (mem n ks)) (tokens t).
Proof.
  intros Hf. induction t as [|[n|c n v] t IH]; cbn [fill map tokens flat_map app filter]; [reflexivity| |exact IH]. fold (fill f ks t) (tokens (fill f ks t)) (tokens t). rewrite <- IH. destruct (mem n ks); cbn [negb]; [|reflexivity].
  destruct (Hf n) as [c [m [v ->]]]. reflexivity.
Qed.
Lemma fill_fill f k ks t : entries f -> fill f ks (fill f [k] t) = fill f (k :: ks) t.
Proof.
  intros Hf. unfold fill. rewrite map_map. apply map_ext. intros [n|c n v]; [|reflexivity]. change (mem n (k :: ks)) with (String.eqb n k || mem n ks). change (mem n [k]) with (String.eqb n k || false). rewrite orb_false_r.
  destruct (String.eqb n k); cbn [orb]; [destruct (Hf n) as [c [m [v ->]]]; reflexivity|reflexivity].
Qed.
Lemma fold_fill f ks t : entries f -> NoDup (tokens t) -> fold_left (fun t k => replace_first k (f k) t) ks t = fill f ks t.
Proof.
  intros Hf. revert t. induction ks as [|k ks IH]; intros t N; cbn [fold_left]; [symmetry; apply fill_nil|]. rewrite replace_fill by exact N. rewrite IH; [apply fill_fill, Hf|]. rewrite fill_tokens by exact Hf. apply NoDup_filter, N.
Qed.
Definition shape (data : list (string * json)) (n : string) : piece := Entry (is_default n (get_attribute data n)) n (get_attribute data n).
Lemma shape_entries data : entries (shape data). Proof. intros n. unfold shape. eauto. Qed.
Lemma render_fill data : render data = map (fun p => match p with Token n => shape data n | _ => p end) template.
Proof.
  unfold render. set (k2 := filter _ _). change (replace_token data) with (fun t k => replace_first k (shape data k) t).
  assert (NoDup (tokens template)) as N by (vm_compute; repeat (constructor; [cbn; intuition discriminate|]); constructor).
  rewrite (fold_fill (shape data) (map fst data) template (shape_entries data) N). rewrite fold_fill; [|apply shape_entries|rewrite fill_tokens by apply shape_entries; apply NoDup_filter, N].
  unfold fill. rewrite map_map. apply map_ext_in. intros [n|c n v] Hin; [|reflexivity].
  assert (In n (map fst defaults)) as Hd by (clear - Hin; repeat (destruct Hin as [E|Hin]; [try discriminate E; injection E as <-; vm_compute; tauto|]); destruct Hin).
  destruct (mem n (map fst data)) eqn:E; [reflexivity|]. replace (mem n k2) with true; [reflexivity|]. symmetry. apply mem_in. apply filter_In. split; [exact Hd|]. change (existsb (String.eqb n) (map fst data)) with (mem n (map fst data)). rewrite E. reflexivity.
Qed.
Definition plain_value (v : json) : Prop := match v with JBool _ | JNum _ => True | _ => False end.
Definition actives (t : list piece) : list (string * json) := flat_map (fun p => match p with Entry false n v => [(n, v)] | _ => [] end) t.
Lemma python_entries t : Forall (fun p => match p with Token _ => False | Entry _ _ v => plain_value v end) t -> python t = Some (actives t).
Proof.
  induction 1 as [|[n|[|] n v] t H F IH]; cbn [python actives flat_map app]; [reflexivity|destruct H|exact IH|]. rewrite IH. destruct v; try destruct H; reflexivity.
Qed.
Lemma typed_plain n v : typed n v -> plain_value v.
Proof. intros [[_ [q ->]]|[_ [b ->]]]; exact I. Qed.
Lemma options_tokens n : In n options <-> In n (tokens template).
Proof. vm_compute. tauto. Qed.
Lemma rendered data : Good data -> python (render data) = Some (actives (render data)).
Proof.
  intros G. rewrite render_fill. apply python_entries. apply Forall_forall. intros p Hp. apply in_map_iff in Hp. destruct Hp as [q [<- Hq]]. destruct q as [n|c n v].
  - unfold shape. eapply typed_plain, attribute_typed; [exact G|]. apply options_tokens. apply in_flat_map. exists (Token n). split; [exact Hq|left; reflexivity].
  - clear - Hq. repeat (destruct Hq as [E|Hq]; [try discriminate E; injection E as <- <- <-; exact I|]). destruct Hq.
Qed.
Definition pname (p : piece) : string := match p with Token n => n | Entry _ n _ => n end.
Lemma actives_in f t n : (forall m, pname (f m) = m) -> In n (map fst (actives (map (fun p => match p with Token m => f m | _ => p end) t))) -> In n (map pname t).
Proof.
  intros Hf. induction t as [|p t IH]; cbn [map actives flat_map]; [tauto|]. fold (actives (map (fun p => match p with Token m => f m | _ => p end) t)). rewrite map_app, in_app_iff. intros [H|H]; [left|right; auto].
  destruct p as [m|[|] m v]; cbn in *; try tauto. specialize (Hf m). destruct (f m) as [x|[|] x v]; cbn in *; try tauto; intuition congruence.
Qed.
Lemma field_app k a b : field k (a ++ b) = match field k a with Some v => Some v | None => field k b end.
Proof. induction a as [|[x v] a IH]; cbn [app field]; [reflexivity|]. destruct (String.eqb k x); [reflexivity|exact IH]. Qed.
Lemma field_actives data t n : NoDup (map pname t) -> In (Token n) t -> field n (actives (map (fun p => match p with Token m => shape data m | _ => p end) t)) = if is_default n (get_attribute data n) then None else Some (get_attribute data n).
Proof.
  induction t as [|p t IH]; intros N Hin; [destruct Hin|]. cbn [map] in N. inversion N as [|? ? Nin N']; subst. cbn [map actives flat_map]. fold (actives (map (fun p => match p with Token m => shape data m | _ => p end) t)). rewrite field_app. destruct Hin as [->|Hin].
  - unfold shape at 1. destruct (is_default n (get_attribute data n)) eqn:E; cbn [field]; [|rewrite String.eqb_refl; reflexivity]. apply field_none. intros H. apply actives_in in H; [|intros m; reflexivity]. exact (Nin H).
  - assert (In n (map pname t)) as Q by (apply (in_map pname) in Hin; exact Hin). assert (n <> pname p) as Ne by congruence. rewrite (IH N' Hin).
    destruct p as [m|[|] m v]; cbn [pname] in Ne; [unfold shape at 1; destruct (is_default m (get_attribute data m))| |]; cbn [field]; try reflexivity; destruct (String.eqb_spec n m); try congruence; reflexivity.
Qed.
Lemma active_field data n : In n options -> field n (actives (render data)) = if is_default n (get_attribute data n) then None else Some (get_attribute data n).
Proof.
  intros Hn. rewrite render_fill. apply field_actives.
  - vm_compute. repeat (constructor; [cbn; intuition discriminate|]); constructor.
  - apply options_tokens in Hn. apply in_flat_map in Hn. destruct Hn as [[m|c m v] [A B]]; [destruct B as [<-|[]]; exact A|destruct B].
Qed.

(* ---- what the firmware makes of it ---- *)

Lemma same_refl v : same v v. Proof. destruct v; cbn; reflexivity. Qed.
Lemma default_same n v : In n options -> typed n v -> is_default n v = true -> forall d, field n defaults = Some d -> same d v.
Proof.
  intros Hn T E d Ed. unfold is_default in E. rewrite Ed in E. destruct T as [[A [q ->]]|[A [b ->]]].
  - clear Hn. repeat (destruct A as [<-|A]; [vm_compute in Ed; injection Ed as <-; apply Qeq_bool_iff in E; exact E|]). destruct A.
  - clear Hn. repeat (destruct A as [<-|A]; [vm_compute in Ed; injection Ed as <-; cbn [loose_eq] in E; apply Bool.eqb_prop in E; subst; reflexivity|]). destruct A.
Qed.
Lemma firmware_default n c : In n options -> n <> "debugStatsInterval" -> field n c = None -> field n defaults = Some (firmware c n).
Proof.
  intros Hn Ne E. unfold firmware. destruct (String.eqb_spec n "debugStatsInterval"); [congruence|]. unfold get_option. rewrite E. clear E.
  repeat (destruct Hn as [<-|Hn]; [first [congruence|vm_compute; reflexivity]|]). destruct Hn.
Qed.
Lemma firmware_set n c v : field n c = Some v -> firmware c n = v.
Proof. intros E. unfold firmware, get_option. rewrite E. destruct (String.eqb n "debugStatsInterval"); reflexivity. Qed.
Lemma options_defaults n : In n options -> exists d, field n defaults = Some d.
Proof. intros Hn. repeat (destruct Hn as [<-|Hn]; [eexists; vm_compute; reflexivity|]). destruct Hn. Qed.
Lemma fw_download data n : Good data -> In n options -> n <> "debugStatsInterval" -> same (firmware (actives (render data)) n) (get_attribute data n).
Proof.
  intros G Hn Ne. pose proof (active_field data n Hn) as A. destruct (is_default n (get_attribute data n)) eqn:E.
  - pose proof (firmware_default n _ Hn Ne A) as F. eapply default_same; eauto. apply attribute_typed; assumption.
  - rewrite (firmware_set _ _ _ A). apply same_refl.
Qed.
Lemma fw_emulator data n : In n options -> n <> "debugStatsInterval" -> firmware data n = get_attribute data n.
Proof.
  intros Hn Ne. unfold get_attribute. destruct (field n data) as [v|] eqn:E; [apply firmware_set, E|]. rewrite (firmware_default n data Hn Ne E). reflexivity.
Qed.
Lemma fw_interval data : Good data -> (forall q, field "debugStatsInterval" data = Some (JNum q) -> ~ (q == 2000)%Q) ->
  same (firmware (actives (render data)) "debugStatsInterval") (firmware data "debugStatsInterval").
Proof.
  intros G H. assert (In "debugStatsInterval" options) as Hn by (vm_compute; tauto). pose proof (active_field data "debugStatsInterval" Hn) as A.
  destruct (field "debugStatsInterval" data) as [v|] eqn:E.
  - assert (get_attribute data "debugStatsInterval" = v) as Q by (unfold get_attribute; rewrite E; reflexivity). rewrite Q in A. rewrite (firmware_set _ _ _ E).
    destruct (is_default "debugStatsInterval" v) eqn:D; [exfalso|rewrite (firmware_set _ _ _ A); apply same_refl]. unfold is_default in D. change (field "debugStatsInterval" defaults) with (Some (JNum 2000)) in D.
    destruct v as [|b|q| | |]; try discriminate D; [destruct b; discriminate D|]. cbn [loose_eq] in D. apply Qeq_bool_iff in D. apply (H q eq_refl). rewrite D. reflexivity.
  - assert (get_attribute data "debugStatsInterval" = JNum 2000) as Q by (unfold get_attribute; rewrite E; reflexivity). rewrite Q in A. change (is_default "debugStatsInterval" (JNum 2000)) with true in A. cbn iota in A.
    unfold firmware. change (String.eqb "debugStatsInterval" "debugStatsInterval") with true. cbn iota. unfold get_option at 1 3. rewrite A, E.
    assert (In "updateInterval" options) as Hu by (vm_compute; tauto). assert ("updateInterval" <> "debugStatsInterval") as Ne by discriminate.
    pose proof (fw_download data "updateInterval" G Hu Ne) as F. rewrite <- (fw_emulator data "updateInterval" Hu Ne) in F. exact F.
Qed.
Lemma shown_step v st o p : proper v o -> shown v (sstep v st o) p =
  match o with SNumber n (Some q) => if String.eqb p n && mem n numbers then JNum q else shown v st p | SNumber _ None => shown v st p | SCheck n b => if String.eqb p n && mem n checkboxes then JBool b else shown v st p
  | SReset => get_attribute [] p | SOther _ => shown v st p end.
Proof.
  intros P. unfold shown. destruct o as [n [q|]|n b| |u]; cbn [sstep].
  - fold (mem n numbers). destruct (mem n numbers); [|rewrite andb_false_r; reflexivity]. unfold set_attribute. rewrite config_get_set. unfold get_attribute. rewrite field_put, andb_true_r. destruct (String.eqb p n); reflexivity.
  - destruct P.
  - fold (mem n checkboxes). destruct (mem n checkboxes); [|rewrite andb_false_r; reflexivity]. unfold set_attribute. rewrite config_get_set. unfold get_attribute. rewrite field_put, andb_true_r. destruct (String.eqb p n); reflexivity.
  - rewrite config_get_set. reflexivity.
  - rewrite config_other by exact P. reflexivity.
Qed.
Lemma bridge_entry data : field "enableMidiBridge" (actives (render data)) = Some (JBool true).
Proof.
  rewrite render_fill. change template with (firstn 5 template ++ Entry false "enableMidiBridge" (JBool true) :: skipn 6 template). rewrite map_app. cbn [map]. unfold actives. rewrite flat_map_app, field_app. fold (actives (map (fun p => match p with Token n => shape data n | _ => p end) (firstn 5 template))).
  match goal with |- context [match field ?k ?l with _ => _ end] => replace (field k l) with (@None json) end; [cbn [flat_map app field]; reflexivity|]. symmetry. apply field_none. intros H. apply actives_in in H; [|intros m; reflexivity]. clear - H. vm_compute in H. intuition discriminate.
Qed.
