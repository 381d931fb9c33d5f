(* C109: starting the firmware. *)
From Verif.Lib Require Import Base.
From Verif.Model Require Import Startup.
From Verif.Spec Require Import Startup.
Local Open Scope list_scope.

Lemma steps_app f a b : steps f (a ++ b) = match steps f a with (d, Some s) => (d, Some s) | (d, None) => let (d2, o) := steps f b in (d ++ d2, o) end.
Proof.
  induction a as [|s a IH]; simpl; [destruct (steps f b); reflexivity|]. destruct (f s); [reflexivity|]. rewrite IH.
  destruct (steps f a) as [d [t|]]; [reflexivity|]. destruct (steps f b); reflexivity.
Qed.
Lemma steps_some f l d s : steps f l = (d, Some s) -> f s = true /\ (exists r, l = d ++ s :: r) /\ Forall (fun x => f x = false) d.
Proof.
  revert d; induction l as [|x l IH]; intros d H; simpl in H; [discriminate|]. destruct (f x) eqn:F.
  - injection H as <- <-. split; [exact F|]. split; [exists l; reflexivity|constructor].
  - destruct (steps f l) as [d' o]; injection H as <- ->. destruct (IH _ eq_refl) as (A & (r & B) & C). split; [exact A|]. split; [exists r; simpl; f_equal; exact B|].
    constructor; assumption.
Qed.
Lemma steps_none f l d : steps f l = (d, None) -> d = l /\ Forall (fun x => f x = false) l.
Proof.
  revert d; induction l as [|x l IH]; intros d H; simpl in H; [injection H as <-; split; constructor|]. destruct (f x) eqn:F; [discriminate|].
  destruct (steps f l) as [d' o]; injection H as <- ->. destruct (IH _ eq_refl) as [-> C]. split; [reflexivity|constructor; assumption].
Qed.
Lemma steps_ok f l : Forall (fun x => f x = false) l -> steps f l = (l, None).
Proof. induction 1 as [|x l F _ IH]; simpl; [reflexivity|]. rewrite F, IH. reflexivity. Qed.

(* All steps of a run in which nothing fails *)
Definition plan (c : config) (n : nat) : list step :=
  [Libraries; Display; ReadConfig] ++
  (if explore c then [ExploreModules; MakeExplore; ExploreInit] ++ map ExploreTick (seq 0 n)
   else ([Modules; ReadCommunication] ++ (if bridge c then [LoadBridge] else []) ++ [Routings]) ++ [ReadDisplay; ReadInputs; MakeController; Init] ++ map Tick (seq 0 n)).
Lemma process_steps c f n : fst (process c f n) = fst (steps f (plan c n)) /\
  match snd (steps f (plan c n)) with None => snd (process c f n) = Running | Some s => failed (snd (process c f n)) s end.
Proof.
  unfold process, plan, failed. rewrite (steps_app f [Libraries; Display; ReadConfig]). destruct (steps f [Libraries; Display; ReadConfig]) as [d [t|]]; [simpl; auto|].
  destruct (explore c); simpl negb; cbn iota.
  - destruct (steps f ([ExploreModules; MakeExplore; ExploreInit] ++ map ExploreTick (seq 0 n))) as [d2 [t|]]; simpl; auto.
  - rewrite (steps_app f (_ ++ _ ++ _)). destruct (steps f ([Modules; ReadCommunication] ++ (if bridge c then [LoadBridge] else []) ++ [Routings])) as [d2 [t|]]; [simpl; auto|].
    destruct (steps f ([ReadDisplay; ReadInputs; MakeController; Init] ++ map Tick (seq 0 n))) as [d3 [t|]]; simpl; [|auto].
    split; [reflexivity|]. destruct (bridge c); auto.
Qed.

(* C109: if no step fails, the loop runs on, however long, whatever the options, and nobody is told about an error *)
Theorem C109_runs c f n : (forall s, f s = false) -> snd (process c f n) = Running /\ (forall k, (k < n)%nat -> In (if explore c then ExploreTick k else Tick k) (fst (process c f n))).
Proof.
  intros N. assert (E : steps f (plan c n) = (plan c n, None)) by (apply steps_ok, Forall_forall; intros; apply N).
  destruct (process_steps c f n) as [A B]. rewrite E in A, B. simpl in A, B. split; [exact B|]. intros k K. rewrite A. unfold plan.
  destruct (explore c); apply in_or_app; right; apply in_or_app; right.
  - apply in_map, in_seq; lia.
  - apply in_or_app; right. apply in_map, in_seq; lia.
Qed.
Print Assumptions C109_runs.

Ltac member := let x := fresh in let X := fresh in intros x X; match goal with G : forall y, In y _ -> ?g y = false |- ?g x = false => apply G; simpl in X |- *; rewrite ?in_app_iff in *; simpl in X |- *; tauto end.
(* C109: at an error nothing is done any more, nothing had failed before, and the error which is shown or reported is that of the step which failed *)
Theorem C109_first c f n s : failed (snd (process c f n)) s -> f s = true /\ Forall (fun x => f x = false) (fst (process c f n)) /\
  (forall g m, (forall x, In x (fst (process c f n)) -> g x = false) -> g s = true -> (n <= m)%nat -> process c g m = process c f n).
Proof.
  intros F. destruct (process_steps c f n) as [A B]. destruct (steps f (plan c n)) as [d [t|]] eqn:E; simpl in A, B.
  2: { rewrite B in F; destruct F; discriminate. }
  assert (t = s) as -> by (destruct F as [F|F], B as [B|B]; congruence).
  destruct (steps_some _ _ _ _ E) as (T & (r & P) & D). split; [exact T|]. split; [rewrite A; exact D|].
  intros g m G Gs L. rewrite A in G.
  assert (X : forall a b, a ++ s :: b = plan c n -> True) by auto. clear X.
  assert (Gen : forall l, steps f l = (l, None) -> (forall x, In x l -> g x = false) -> steps g l = (l, None)) by (intros; apply steps_ok, Forall_forall; assumption).
  assert (Gen2 : forall l k e, steps f l = (k, Some s) -> (forall x, In x k -> g x = false) -> steps g (l ++ e) = (k, Some s)).
  { intros l k e H Hk. destruct (steps_some _ _ _ _ H) as (_ & (q & ->) & _). rewrite <- app_assoc, steps_app. rewrite (steps_ok g k) by (apply Forall_forall; exact Hk).
    simpl. rewrite Gs. rewrite List.app_nil_r. reflexivity. }
  assert (S : seq 0 m = seq 0 n ++ seq n (m - n)) by (replace m with (n + (m - n))%nat at 1 by lia; apply seq_app).
  clear A B F. unfold process in *. unfold plan in E. rewrite steps_app in E.
  destruct (steps f [Libraries; Display; ReadConfig]) as [d1 [u|]] eqn:E1.
  - injection E as -> ->. pose proof (Gen2 _ _ [] E1 G) as Q. rewrite List.app_nil_r in Q. rewrite Q. reflexivity.
  - assert (d1 = [Libraries; Display; ReadConfig]) as -> by (apply (steps_none _ _ _ E1)).
    destruct (explore c); simpl negb; cbn iota.
    + destruct (steps f ([ExploreModules; MakeExplore; ExploreInit] ++ map ExploreTick (seq 0 n))) as [d2 [u|]] eqn:E2; [|discriminate]. injection E as <- ->.
      rewrite (Gen _ E1) by member.
      rewrite S, map_app, app_assoc, (Gen2 _ _ _ E2) by member. reflexivity.
    + rewrite steps_app in E. destruct (steps f ([Modules; ReadCommunication] ++ (if bridge c then [LoadBridge] else []) ++ [Routings])) as [d2 [u|]] eqn:E2.
      * injection E as <- ->. rewrite (Gen _ E1) by member.
        assert (Q : steps g (([Modules; ReadCommunication] ++ (if bridge c then [LoadBridge] else []) ++ [Routings]) ++ []) = (d2, Some s)) by (apply (Gen2 _ _ [] E2); member). rewrite List.app_nil_r in Q. rewrite Q. reflexivity.
      * destruct (steps f ([ReadDisplay; ReadInputs; MakeController; Init] ++ map Tick (seq 0 n))) as [d3 [u|]] eqn:E3; [|discriminate]. injection E as <- ->.
        destruct (steps_none _ _ _ E2) as [-> _].
        rewrite (Gen _ E1) by member.
        rewrite (Gen _ E2) by member.
        rewrite S, map_app, app_assoc, (Gen2 _ _ _ E3) by member. reflexivity.
Qed.
Print Assumptions C109_first.

(* C109: with the bridge, every error from reading display.py on (also in inputs.py, at the creation of the controller, and in any later round of the loop) is handed to the bridge;
   without, the program ends with it *)
Theorem C109_reported_partial c f n : explore c = false ->
  Forall (fun x => f x = false) [Libraries; Display; ReadConfig; Modules; ReadCommunication; LoadBridge; Routings] ->
  forall s, failed (snd (process c f n)) s -> snd (process c f n) = if bridge c then Reported s else Stopped s.
Proof.
  intros X N s F. rewrite Forall_forall in N. simpl in N. unfold process in *. rewrite X in *. simpl negb in *. cbn iota in *.
  rewrite (steps_ok f [Libraries; Display; ReadConfig]) in * by (repeat constructor; apply N; tauto).
  rewrite (steps_ok f ([Modules; ReadCommunication] ++ (if bridge c then [LoadBridge] else []) ++ [Routings])) in * by (destruct (bridge c); repeat constructor; apply N; tauto).
  destruct (steps f ([ReadDisplay; ReadInputs; MakeController; Init] ++ map Tick (seq 0 n))) as [d3 [u|]]; simpl in *.
  - destruct (bridge c), F as [F|F]; congruence.
  - destruct F; discriminate.
Qed.
Print Assumptions C109_reported_partial.

(* C109 (refuted): "with the bridge, a faulty file of the user can be replaced over MIDI": an error in config.py or communication.py, which the bridge can write as well, ends the program *)
Theorem C109_reported_refuted c f n : bridge c = true -> explore c = false -> f Libraries = false -> f Display = false ->
  (f ReadConfig = true -> snd (process c f n) = Stopped ReadConfig) /\
  (f ReadConfig = false -> f Modules = false -> f ReadCommunication = true -> snd (process c f n) = Stopped ReadCommunication).
Proof. intros B X L D. unfold process. simpl. rewrite L, D, B, X. split; [intros ->; reflexivity|]. intros -> -> ->. reflexivity. Qed.
Print Assumptions C109_reported_refuted.
(* ... and in explore mode there is no bridge, whatever config.py says *)
Theorem C109_explore_refuted c f n : explore c = true -> (forall s, snd (process c f n) <> Reported s) /\ ~ In LoadBridge (fst (process c f n)).
Proof.
  intros X. split.
  - intros s. unfold process. rewrite X. simpl negb. cbn iota. destruct (steps f [Libraries; Display; ReadConfig]) as [d [u|]]; [discriminate|].
    destruct (steps f ([ExploreModules; MakeExplore; ExploreInit] ++ map ExploreTick (seq 0 n))) as [d2 [u|]]; discriminate.
  - intros I. destruct (process_steps c f n) as [A _]. rewrite A in I.
    assert (P : In LoadBridge (plan c n)).
    { destruct (steps f (plan c n)) as [d [t|]] eqn:E; simpl in I.
      - destruct (steps_some _ _ _ _ E) as (_ & (r & ->) & _). apply in_or_app; left; exact I.
      - destruct (steps_none _ _ _ E) as [-> _]. exact I. }
    unfold plan in P. rewrite X in P. simpl in P. repeat (destruct P as [P|P]; [discriminate|]). apply in_map_iff in P. destruct P as (k & P & _); discriminate.
Qed.
Print Assumptions C109_explore_refuted.

(* C109: the display shows the console before any file of the user is read, so that all their errors can be seen: an error of such a file comes after the display is there *)
Theorem C109_console c f n s file : reads s file -> failed (snd (process c f n)) s \/ In s (fst (process c f n)) -> In Display (fst (process c f n)).
Proof.
  intros R H. destruct (process_steps c f n) as [A B].
  assert (E : steps f (plan c n) = steps f ([Libraries; Display] ++ skipn 2 (plan c n))) by reflexivity.
  rewrite A in *. rewrite E in *. rewrite steps_app in *. destruct (f Libraries) eqn:L; [|destruct (f Display) eqn:D].
  - exfalso. simpl steps in B, H. rewrite L in B, H. simpl in B, H. destruct H as [H|[]]. assert (s = Libraries) as -> by (unfold failed in *; destruct H, B; congruence).
    destruct file; discriminate R.
  - exfalso. simpl steps in B, H. rewrite L, D in B, H. simpl in B, H. destruct H as [H|[H|[]]].
    + assert (s = Display) as -> by (unfold failed in *; destruct H, B; congruence). destruct file; discriminate R.
    + subst s. destruct file; discriminate R.
  - simpl steps. rewrite L, D. destruct (steps f (skipn 2 (plan c n))) as [d o] eqn:Q. unfold plan in Q. simpl in Q |- *. rewrite Q. simpl. auto.
Qed.
Print Assumptions C109_console.

(* C109: explore mode works whatever is in communication.py, display.py and inputs.py *)
Theorem C109_explore c f g n : explore c = true -> agree (fun s => forall x, reads s x -> x = ConfigFile) f g -> process c f n = process c g n.
Proof.
  intros X A. assert (S : forall l, Forall (fun s => forall x, reads s x -> x = ConfigFile) l -> steps f l = steps g l).
  { induction 1 as [|s l P _ IH]; simpl; [reflexivity|]. rewrite (A s P), IH. reflexivity. }
  unfold process. rewrite X. simpl negb. cbn iota. rewrite (S [Libraries; Display; ReadConfig]).
  2: { repeat constructor; intros [| | |]; simpl; congruence. }
  rewrite (S ([ExploreModules; MakeExplore; ExploreInit] ++ map ExploreTick (seq 0 n))); [reflexivity|].
  apply Forall_app; split; [repeat constructor; intros [| | |]; simpl; congruence|]. apply Forall_forall. intros s I. apply in_map_iff in I. destruct I as (k & <- & _).
  intros [| | |]; simpl; congruence.
Qed.
Print Assumptions C109_explore.

(* C109: the files are read in order: config.py, communication.py, display.py, inputs.py, each before the next, and all before the first round *)
Theorem C109_order c f n : explore c = false ->
  before ReadConfig ReadCommunication (fst (process c f n)) /\ before ReadCommunication ReadDisplay (fst (process c f n)) /\ before ReadDisplay ReadInputs (fst (process c f n)) /\
  (forall k, before ReadInputs (Tick k) (fst (process c f n))) /\ (bridge c = true -> before LoadBridge ReadDisplay (fst (process c f n))).
Proof.
  intros X. destruct (process_steps c f n) as [A _]. rewrite A. clear A.
  assert (Pre : exists r, plan c n = fst (steps f (plan c n)) ++ r).
  { destruct (steps f (plan c n)) as [d [t|]] eqn:E.
    - destruct (steps_some _ _ _ _ E) as (_ & (r & P) & _). exists (t :: r). exact P.
    - destruct (steps_none _ _ _ E) as [-> _]. exists []. simpl. rewrite List.app_nil_r. reflexivity. }
  destruct Pre as [r P]. set (d := fst (steps f (plan c n))) in *. clearbody d.
  assert (G : forall a b p, before a b p -> forall q, p = d ++ q -> before a b d).
  { intros a b p H q E x y D. apply (H x (y ++ q)). rewrite E, D, <- app_assoc. reflexivity. }
  assert (K : forall (a b : step) u v, ~ In b u -> In a u -> before a b (u ++ v)).
  { intros a b u v Nb Ia x y E. clear - Nb Ia E. revert x E. induction u as [|z u IH]; intros x E; [destruct Ia|]. destruct x as [|w x]; simpl in E.
    - injection E as -> _. destruct Nb; left; reflexivity.
    - injection E as -> E. destruct Ia as [->|Ia]; [left; reflexivity|right]. apply IH; [intros Q; apply Nb; right; exact Q|exact Ia|exact E]. }
  assert (Pl : forall (a b : step) u v, plan c n = u ++ v -> ~ In b u -> In a u -> before a b d) by (intros a b u v E N I; apply (G a b (plan c n)) with (q := r); [rewrite E; apply K; assumption|exact P]).
  unfold plan in Pl. rewrite X in Pl.
  assert (Tr : [Libraries; Display; ReadConfig] ++ ([Modules; ReadCommunication] ++ (if bridge c then [LoadBridge] else []) ++ [Routings]) ++ [ReadDisplay; ReadInputs; MakeController; Init] ++ map Tick (seq 0 n)
    = ([Libraries; Display; ReadConfig; Modules; ReadCommunication] ++ (if bridge c then [LoadBridge] else []) ++ [Routings; ReadDisplay; ReadInputs; MakeController; Init]) ++ map Tick (seq 0 n))
    by (destruct (bridge c); reflexivity).
  destruct (bridge c).
  - repeat split; [apply (Pl _ _ [Libraries; Display; ReadConfig; Modules] (ReadCommunication :: LoadBridge :: Routings :: ReadDisplay :: ReadInputs :: MakeController :: Init :: map Tick (seq 0 n)))
    |apply (Pl _ _ [Libraries; Display; ReadConfig; Modules; ReadCommunication; LoadBridge; Routings] (ReadDisplay :: ReadInputs :: MakeController :: Init :: map Tick (seq 0 n)))
    |apply (Pl _ _ [Libraries; Display; ReadConfig; Modules; ReadCommunication; LoadBridge; Routings; ReadDisplay] (ReadInputs :: MakeController :: Init :: map Tick (seq 0 n)))
    |intros k; apply (Pl _ _ [Libraries; Display; ReadConfig; Modules; ReadCommunication; LoadBridge; Routings; ReadDisplay; ReadInputs; MakeController; Init] (map Tick (seq 0 n)))
    |intros _; apply (Pl _ _ [Libraries; Display; ReadConfig; Modules; ReadCommunication; LoadBridge; Routings] (ReadDisplay :: ReadInputs :: MakeController :: Init :: map Tick (seq 0 n)))];
    try reflexivity; simpl; intuition congruence.
  - repeat split; [apply (Pl _ _ [Libraries; Display; ReadConfig; Modules] (ReadCommunication :: Routings :: ReadDisplay :: ReadInputs :: MakeController :: Init :: map Tick (seq 0 n)))
    |apply (Pl _ _ [Libraries; Display; ReadConfig; Modules; ReadCommunication; Routings] (ReadDisplay :: ReadInputs :: MakeController :: Init :: map Tick (seq 0 n)))
    |apply (Pl _ _ [Libraries; Display; ReadConfig; Modules; ReadCommunication; Routings; ReadDisplay] (ReadInputs :: MakeController :: Init :: map Tick (seq 0 n)))
    |intros k; apply (Pl _ _ [Libraries; Display; ReadConfig; Modules; ReadCommunication; Routings; ReadDisplay; ReadInputs; MakeController; Init] (map Tick (seq 0 n)))
    |discriminate];
    try reflexivity; simpl; intuition congruence.
Qed.
Print Assumptions C109_order.

(* C109: never both the computer and the firmware can write files, always one of them can, and the computer exactly if the switch is held (low level) while the device boots *)
Theorem C109_drive level : computer (boot level) = negb (firmware (boot level)) /\ (computer (boot level) = true <-> level = false).
Proof. destruct level; simpl; split; try reflexivity; split; congruence. Qed.
Print Assumptions C109_drive.

(* An error in the third round of the loop, with the bridge and without; a missing inputs.py *)
Example ex_startup : let f s := match s with Tick 2 => true | _ => false end in
  snd (process {| explore := false; bridge := true |} f 9) = Reported (Tick 2) /\ snd (process {| explore := false; bridge := false |} f 9) = Stopped (Tick 2) /\
  snd (process {| explore := false; bridge := true |} f 2) = Running /\
  process {| explore := false; bridge := true |} (fun s => match s with ReadInputs => true | _ => false end) 5 =
    ([Libraries; Display; ReadConfig; Modules; ReadCommunication; LoadBridge; Routings; ReadDisplay], Reported ReadInputs).
Proof. vm_compute. repeat split; reflexivity. Qed.
