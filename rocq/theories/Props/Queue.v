(* C94: routes of the web application are executed one at a time, in the order of the requests, and none is lost. *)
From Coq Require Import String.
From Verif.Lib Require Import Base.
From Verif.Model Require Import Queue.
From Verif.Spec Require Import Queue.
Local Open Scope list_scope.

Section Props.
  Context {A : Type}.
  Local Notation queue := (queue A).
  Local Notation event := (event A).

  Lemma flat_map_app' {X Y} (f : X -> list Y) l l' : flat_map f (l ++ l') = flat_map f l ++ flat_map f l'.
  Proof. apply flat_map_app. Qed.
  Lemma started_app (l l' : list (obs A)) : started (l ++ l') = started l ++ started l'. Proof. apply flat_map_app. Qed.
  Lemma ended_app (l l' : list (obs A)) : ended (l ++ l') = ended l ++ ended l'. Proof. apply flat_map_app. Qed.
  Lemma shown_app (l l' : list (obs A)) : shown (l ++ l') = shown l ++ shown l'. Proof. apply flat_map_app. Qed.

  (* The route which is executed after the log *)
  Fixpoint current (cur : option nat) (l : list (obs A)) : option nat := match l with [] => cur | Start i _ :: l => current (Some i) l | End _ :: l => current None l | _ :: l => current cur l end.
  Lemma current_app c (l l' : list (obs A)) : current c (l ++ l') = current (current c l) l'.
  Proof. revert c. induction l as [|[]]; intros; cbn; auto. Qed.
  Lemma sequential_app c (l l' : list (obs A)) : sequential c (l ++ l') <-> sequential c l /\ sequential (current c l) l'.
  Proof. revert c. induction l as [|[]]; intros c0; cbn; [tauto|..]; rewrite IHl; cbn; try tauto. Qed.

  Lemma requests_app n (l l' : list event) : requests n (l ++ l') = requests n l ++ requests (n + length (requests n l)) l'.
  Proof. revert n. induction l as [|[c| |] l IH]; intros n; cbn; rewrite ?Nat.add_0_r; auto. rewrite IH. f_equal. f_equal. f_equal. lia. Qed.
  Lemma requests_fst n (l : list event) : map fst (requests n l) = seq n (length (requests n l)).
  Proof. revert n. induction l as [|[] l IH]; intros; cbn; auto. rewrite IH. reflexivity. Qed.

  (* Everything there is to know about a reached state. The last component: which phase the queue is in *)
  Record inv (l : list event) (s : queue) : Prop := {
    i_count : q_count s = length (requests 0 l);
    i_order : started (q_log s) ++ q_waiting s = requests 0 l;
    i_seq : sequential None (q_log s);
    i_phase : (q_running s = false /\ q_waiting s = [] /\ q_active s = [] /\ q_ready s = [] /\ current None (q_log s) = None /\ ended (q_log s) = map fst (started (q_log s)))
      \/ (exists i, q_running s = true /\ q_active s = [i] /\ q_ready s = [] /\ current None (q_log s) = Some i /\ map fst (started (q_log s)) = ended (q_log s) ++ [i])
      \/ (exists i, q_running s = true /\ q_active s = [] /\ q_ready s = [i] /\ current None (q_log s) = None /\ ended (q_log s) = map fst (started (q_log s)))
      \/ (q_running s = true /\ q_active s = [] /\ q_ready s = [] /\ current None (q_log s) = None /\ ended (q_log s) = map fst (started (q_log s)) /\ ~ messages_work l)
  }.
  Lemma step_inv l s e : inv l s -> inv (l ++ [e]) (step s e).
  Proof.
    intros [Ic Io Is Ip].
    assert (~ messages_work l -> ~ messages_work (l ++ [e])) as Mono by (intros N M; apply N; intros i a b m H; apply (M i a b m); apply in_or_app; auto).
    destruct e as [c|i a b m|i]; cbn [step].
    - (* a request *)
      assert (requests 0 (l ++ [Call c]) = requests 0 l ++ [(q_count s, c)]) as R by (rewrite requests_app, Ic; reflexivity).
      unfold call, trigger, enqueue; cbn [q_running q_waiting q_active q_ready q_count q_log].
      destruct Ip as [(R0 & W & A0 & D & C & E)|[(j & R0 & A0 & D & C & E)|[(j & R0 & A0 & D & C & E)|(R0 & A0 & D & C & E & N)]]]; rewrite R0.
      + rewrite W, A0 in *. rewrite app_nil_r in Io. cbn [app]. constructor; cbn [q_running q_waiting q_active q_ready q_count q_log].
        * rewrite R, app_length, Ic. cbn. lia.
        * rewrite started_app, app_nil_r, R, Io. reflexivity.
        * rewrite sequential_app, C. cbn. auto.
        * right. left. exists (q_count s). rewrite current_app, started_app, ended_app, map_app, C, D, E. cbn. rewrite app_nil_r. auto.
      + constructor; cbn [q_running q_waiting q_active q_ready q_count q_log]; [rewrite R, app_length, Ic; cbn; lia|rewrite app_assoc, Io, R; reflexivity|assumption|]. right. left. exists j. auto.
      + constructor; cbn [q_running q_waiting q_active q_ready q_count q_log]; [rewrite R, app_length, Ic; cbn; lia|rewrite app_assoc, Io, R; reflexivity|assumption|]. right. right. left. exists j. auto.
      + constructor; cbn [q_running q_waiting q_active q_ready q_count q_log]; [rewrite R, app_length, Ic; cbn; lia|rewrite app_assoc, Io, R; reflexivity|assumption|]. right. right. right. repeat split; auto.
    - (* a promise is settled *)
      assert (requests 0 (l ++ [Settle i a b m]) = requests 0 l) as R by (rewrite requests_app; apply app_nil_r).
      destruct Ip as [(R0 & W & A0 & D & C & E)|[(j & R0 & A0 & D & C & E)|[(j & R0 & A0 & D & C & E)|(R0 & A0 & D & C & E & N)]]]; rewrite A0; cbn [existsb].
      + constructor; rewrite ?R; auto. left. auto 10.
      + destruct (Nat.eqb i j) eqn:Eij; cbn [orb].
        * apply Nat.eqb_eq in Eij as <-. cbn [filter]. rewrite Nat.eqb_refl. cbn [negb].
          assert (started (q_log s ++ (if fst (execute a b m) then [Shown i] else []) ++ [End i]) = started (q_log s)) as S1 by (rewrite started_app; destruct (fst _); cbn; apply app_nil_r).
          assert (ended (q_log s ++ (if fst (execute a b m) then [Shown i] else []) ++ [End i]) = ended (q_log s) ++ [i]) as S2 by (rewrite ended_app; destruct (fst _); reflexivity).
          assert (current None (q_log s ++ (if fst (execute a b m) then [Shown i] else []) ++ [End i]) = None) as S3 by (rewrite current_app; destruct (fst _); reflexivity).
          constructor; cbn [q_running q_waiting q_active q_ready q_count q_log]; rewrite ?R; auto.
          -- rewrite S1. exact Io.
          -- rewrite sequential_app, C. split; [exact Is|]. destruct (fst _); cbn; auto.
          -- rewrite S1, S2, S3, D. destruct (snd (execute a b m)) eqn:X.
             ++ right. right. left. exists i. auto.
             ++ right. right. right. repeat split; auto. intros M. assert (m = true) as -> by (apply (M i a b m); apply in_or_app; right; left; reflexivity). destruct a, b; discriminate X.
        * constructor; rewrite ?R; auto. right. left. exists j. auto.
      + constructor; rewrite ?R; auto. right. right. left. exists j. auto.
      + constructor; rewrite ?R; auto. right. right. right. repeat split; auto.
    - (* the code after the await *)
      assert (requests 0 (l ++ [Resume i]) = requests 0 l) as R by (rewrite requests_app; apply app_nil_r).
      destruct Ip as [(R0 & W & A0 & D & C & E)|[(j & R0 & A0 & D & C & E)|[(j & R0 & A0 & D & C & E)|(R0 & A0 & D & C & E & N)]]]; rewrite D; cbn [existsb].
      + constructor; rewrite ?R; auto. left. auto 10.
      + constructor; rewrite ?R; auto. right. left. exists j. auto.
      + destruct (Nat.eqb i j) eqn:Eij; cbn [orb].
        * cbn [filter]. rewrite Eij. cbn [negb]. unfold trigger; cbn [q_running q_waiting q_active q_ready q_count q_log].
          destruct (q_waiting s) as [|[k c] w] eqn:W.
          -- constructor; cbn [q_running q_waiting q_active q_ready q_count q_log]; rewrite ?R; auto. left. auto 10.
          -- rewrite A0. cbn [app]. constructor; cbn [q_running q_waiting q_active q_ready q_count q_log]; rewrite ?R; auto.
             ++ rewrite started_app, <- app_assoc. exact Io.
             ++ rewrite sequential_app, C. cbn. auto.
             ++ right. left. exists k. rewrite current_app, started_app, ended_app, map_app, C, E. cbn. rewrite app_nil_r. auto.
        * constructor; rewrite ?R; auto. right. right. left. exists j. auto.
      + constructor; rewrite ?R; auto. right. right. right. repeat split; auto.
  Qed.
  Lemma run_snoc (l : list event) e : run (l ++ [e]) = step (run l) e. Proof. unfold run. rewrite fold_left_app. reflexivity. Qed.
  Lemma run_inv (l : list event) : inv l (run l).
  Proof.
    induction l as [|e l IH] using rev_ind.
    - constructor; cbn; auto. left. auto 10.
    - rewrite run_snoc. apply step_inv, IH.
  Qed.

  (* Routes are never executed in parallel *)
  Theorem C94_sequential (l : list event) : sequential None (q_log (run l)).
  Proof. apply (run_inv l). Qed.
  (* They are executed in the order of the requests, each at most once and with what it has been requested with *)
  Theorem C94_order (l : list event) : exists rest, started (q_log (run l)) ++ rest = requests 0 l.
  Proof. exists (q_waiting (run l)). apply (run_inv l). Qed.
  Lemma started_nodup (l : list event) : NoDup (map fst (started (q_log (run l)))).
  Proof.
    assert (NoDup (map fst (requests 0 l))) as X by (rewrite requests_fst; apply seq_NoDup). destruct (C94_order l) as [r Io]. rewrite <- Io, map_app in X. clear - X.
    induction (map fst (started (q_log (run l)))) as [|x y IH]; [constructor|]. cbn in X. apply NoDup_cons_iff in X as [X1 X2]. constructor; [intros Q; apply X1; apply in_or_app; auto|apply IH, X2].
  Qed.
  Lemma executing_iff (l : list event) i : executing i (q_log (run l)) <-> q_active (run l) = [i].
  Proof.
    pose proof (started_nodup l) as N. destruct (run_inv l) as [_ _ _ Ip]. split.
    - intros [[c S] E0]. apply (in_map fst) in S. cbn in S.
      destruct Ip as [(R0 & W & A0 & D & C & E)|[(j & R0 & A0 & D & C & E)|[(j & R0 & A0 & D & C & E)|(R0 & A0 & D & C & E & _)]]]; try (rewrite E in E0; contradiction).
      rewrite E in S. apply in_app_or in S as [S|[<-|[]]]; [contradiction|exact A0].
    - intros Q. destruct Ip as [(R0 & W & A0 & D & C & E)|[(j & R0 & A0 & D & C & E)|[(j & R0 & A0 & D & C & E)|(R0 & A0 & D & C & E & _)]]]; rewrite A0 in Q; try discriminate Q. injection Q as ->. split.
      + assert (In i (map fst (started (q_log (run l))))) as H by (rewrite E; apply in_or_app; right; left; reflexivity). apply in_map_iff in H as ([? c] & <- & H). exists c. exact H.
      + intros H. rewrite E in N. clear - H N. induction (ended (q_log (run l))) as [|x y IH]; [destruct H|]. cbn in N. apply NoDup_cons_iff in N as [N1 N2].
        destruct H as [->|H]; [apply N1; apply in_or_app; right; left; reflexivity|auto].
  Qed.

  (* No request is lost: as long as errors can be shown, everything requested has been executed, or a route is being executed, or one has just ended and the next one begins with the code after the await *)
  Theorem C94_no_loss (l : list event) : messages_work l ->
    (started (q_log (run l)) = requests 0 l /\ ended (q_log (run l)) = map fst (requests 0 l)) \/ (exists i, executing i (q_log (run l))) \/ (exists i k, executing k (q_log (run (l ++ [Resume i])))).
  Proof.
    intros M. destruct (run_inv l) as [Ic Io Is Ip]. destruct Ip as [(R0 & W & A0 & D & C & E)|[(j & R0 & A0 & D & C & E)|[(j & R0 & A0 & D & C & E)|(R0 & A0 & D & C & E & N)]]].
    - left. rewrite W, app_nil_r in Io. rewrite E, Io. auto.
    - right. left. exists j. apply executing_iff, A0.
    - destruct (q_waiting (run l)) as [|[k c] w] eqn:W; [left; rewrite app_nil_r in Io; rewrite E, Io; auto|]. right. right. exists j, k. apply executing_iff. rewrite run_snoc. cbn [step]. rewrite D. cbn [existsb]. rewrite Nat.eqb_refl.
      cbn [orb]. unfold trigger; cbn [q_running q_waiting]. rewrite W. cbn [q_active]. rewrite A0. reflexivity.
    - contradiction.
  Qed.

  (* All of them are executed, whatever happens in the routes ([o]: does the reset of the user interface, does the route succeed), if only each of them ends *)
  Theorem C94_completion (l : list event) (o : nat -> bool * bool) : messages_work l ->
    exists l', no_requests l' /\ (forall i a b m, In (Settle i a b m) l' -> (a, b) = o i /\ m = true) /\ started (q_log (run (l ++ l'))) = requests 0 l /\ ended (q_log (run (l ++ l'))) = map fst (requests 0 l).
  Proof.
    remember (length (q_waiting (run l))) as n eqn:Hn. revert l Hn. induction n as [|n IH]; intros l Hn M.
    all: destruct (run_inv l) as [Ic Io Is Ip].
    - destruct (q_waiting (run l)) eqn:W; [|discriminate Hn]. rewrite app_nil_r in Io. destruct Ip as [(R0 & _ & A0 & D & C & E)|[(j & R0 & A0 & D & C & E)|[(j & R0 & A0 & D & C & E)|(R0 & A0 & D & C & E & N)]]].
      + exists []. rewrite app_nil_r, E, Io. repeat split; [intros c []|destruct H|destruct H].
      + exists [Settle j (fst (o j)) (snd (o j)) true]. split; [intros c [H|[]]; discriminate H|]. split; [intros i a b m [H|[]]; injection H as <- <- <- <-; rewrite <- surjective_pairing; auto|].
        rewrite run_snoc. cbn [step]. rewrite A0. cbn [existsb]. rewrite Nat.eqb_refl. cbn [orb q_log]. rewrite started_app, ended_app, <- Io, E.
        destruct (fst (execute (fst (o j)) (snd (o j)) true)); cbn; rewrite app_nil_r; auto.
      + exists []. rewrite app_nil_r, E, Io. repeat split; [intros c []|destruct H|destruct H].
      + contradiction.
    - assert (exists l1, no_requests l1 /\ (forall i a b m, In (Settle i a b m) l1 -> (a, b) = o i /\ m = true) /\ length (q_waiting (run (l ++ l1))) = n) as (l1 & N1 & S1 & L1).
      { destruct (q_waiting (run l)) as [|[k c] w] eqn:W; [discriminate Hn|]. injection Hn as Hn. destruct Ip as [(R0 & W0 & A0 & D & C & E)|[(j & R0 & A0 & D & C & E)|[(j & R0 & A0 & D & C & E)|(R0 & A0 & D & C & E & N)]]].
        - congruence.
        - exists [Settle j (fst (o j)) (snd (o j)) true; Resume j]. split; [intros c' [H|[H|[]]]; discriminate H|]. split; [intros i a b m [H|[H|[]]]; [injection H as <- <- <- <-; rewrite <- surjective_pairing; auto|discriminate H]|].
          change (l ++ [?x; ?y]) with (l ++ ([x] ++ [y])). rewrite app_assoc, run_snoc, run_snoc. cbn [step]. rewrite A0. cbn [existsb]. rewrite Nat.eqb_refl. cbn [orb q_ready]. 
          assert (snd (execute (fst (o j)) (snd (o j)) true) = true) as -> by (destruct (fst (o j)), (snd (o j)); reflexivity). rewrite D. cbn [app existsb]. rewrite Nat.eqb_refl. cbn [orb].
          unfold trigger; cbn [q_running q_waiting]. rewrite W. cbn. congruence.
        - exists [Resume j]. split; [intros c' [H|[]]; discriminate H|]. split; [intros i a b m [H|[]]; discriminate H|]. rewrite run_snoc. cbn [step]. rewrite D. cbn [existsb]. rewrite Nat.eqb_refl. cbn [orb].
          unfold trigger; cbn [q_running q_waiting]. rewrite W. cbn. congruence.
        - contradiction. }
      destruct (IH (l ++ l1)) as (l2 & N2 & S2 & B & E); [congruence|intros i a b m H; apply in_app_or in H as [H|H]; [apply (M _ _ _ _ H)|apply (S1 _ _ _ _ H)]|].
      assert (requests 0 (l ++ l1) = requests 0 l) as Rq.
      { rewrite requests_app. assert (forall n, requests n l1 = []) as ->; [|apply app_nil_r]. clear - N1. induction l1 as [|[] l1 IH]; intros; cbn; auto; [destruct (N1 c); left; reflexivity|apply IH; intros c H; apply (N1 c); right; exact H|
          apply IH; intros c H; apply (N1 c); right; exact H]. }
      rewrite Rq in B, E. exists (l1 ++ l2). split; [intros c H; apply in_app_or in H as [H|H]; [apply (N1 c H)|apply (N2 c H)]|].
      split; [intros i a b m H; apply in_app_or in H as [H|H]; [apply (S1 _ _ _ _ H)|apply (S2 _ _ _ _ H)]|]. rewrite app_assoc. auto.
  Qed.

  (* An error is shown for a route if and only if it fails: the reset of the user interface, or the route itself *)
  Theorem C94_reported (l : list event) i : In i (shown (q_log (run l))) <-> exists l1 l2 a b m, l = l1 ++ Settle i a b m :: l2 /\ executing i (q_log (run l1)) /\ a && b = false.
  Proof.
    induction l as [|e l IH] using rev_ind.
    - split; [intros []|]. intros (l1 & l2 & a & b & m & H & _). destruct l1; discriminate H.
    - assert ((exists l1 l2 a b m, l ++ [e] = l1 ++ Settle i a b m :: l2 /\ executing i (q_log (run l1)) /\ a && b = false) <->
              (exists l1 l2 a b m, l = l1 ++ Settle i a b m :: l2 /\ executing i (q_log (run l1)) /\ a && b = false) \/ (exists a b m, e = Settle i a b m /\ executing i (q_log (run l)) /\ a && b = false)) as ->.
      { split.
        - intros (l1 & l2 & a & b & m & H & X & F). destruct l2 as [|x l2] using rev_ind.
          + change (l1 ++ [Settle i a b m]) with (l1 ++ [Settle i a b m]) in H. apply app_inj_tail in H as [<- ->]. right. exists a, b, m. auto.
          + clear IHl2. rewrite app_comm_cons, app_assoc in H. apply app_inj_tail in H as [-> ->]. left. exists l1, l2, a, b, m. auto.
        - intros [(l1 & l2 & a & b & m & -> & X & F)|(a & b & m & -> & X & F)].
          + exists l1, (l2 ++ [e]), a, b, m. rewrite <- app_assoc. auto.
          + exists l, [], a, b, m. auto. }
      rewrite <- IH, run_snoc. clear IH. destruct e as [c|j a b m|j]; cbn [step].
      + assert (shown (q_log (call c (run l))) = shown (q_log (run l))) as ->.
        { unfold call, trigger, enqueue; cbn [q_running q_waiting q_log]. destruct (q_running (run l)); cbn [q_log]; [reflexivity|]. destruct (q_waiting (run l) ++ _) as [|[k d] w]; cbn [q_log]; [reflexivity|]. rewrite shown_app. apply app_nil_r. }
        split; [auto|]. intros [H|(a & b & m & H & _)]; [exact H|discriminate H].
      + destruct (existsb (Nat.eqb j) (q_active (run l))) eqn:X.
        * cbn [q_log]. rewrite shown_app. assert (executing j (q_log (run l))) as Ex.
          { apply executing_iff. apply existsb_exists in X as (k & K & Q). apply Nat.eqb_eq in Q as <-. destruct (run_inv l) as [_ _ _ Ip].
            destruct Ip as [(R0 & W & A0 & D & C & E)|[(y & R0 & A0 & D & C & E)|[(y & R0 & A0 & D & C & E)|(R0 & A0 & D & C & E & _)]]]; rewrite A0 in *; first [destruct K as [->|[]]; reflexivity | destruct K]. }
          rewrite in_app_iff. apply or_iff_compat_l. assert (fst (execute a b m) = negb (a && b)) as -> by (destruct a, b, m; reflexivity).
          destruct (a && b) eqn:AB; cbn.
          -- split; [intros []|]. intros (a' & b' & m' & H & _ & F). injection H as <- <- <- <-. congruence.
          -- split; [intros [<-|[]]; exists a, b, m; auto|]. intros (a' & b' & m' & H & _ & F). injection H as <- _ _ _. auto.
        * split; [auto|]. intros [H|(a' & b' & m' & H & Ex & _)]; [exact H|]. injection H as <- _ _ _. apply executing_iff in Ex. rewrite Ex in X. cbn in X. rewrite Nat.eqb_refl in X. discriminate X.
      + assert (shown (q_log (if existsb (Nat.eqb j) (q_ready (run l)) then trigger {| q_waiting := q_waiting (run l); q_running := false; q_active := q_active (run l);
            q_ready := filter (fun k => negb (Nat.eqb j k)) (q_ready (run l)); q_count := q_count (run l); q_log := q_log (run l) |} else run l)) = shown (q_log (run l))) as ->.
        { destruct (existsb (Nat.eqb j) (q_ready (run l))); [|reflexivity]. unfold trigger; cbn [q_running q_waiting q_log]. destruct (q_waiting (run l)) as [|[k d] w]; cbn [q_log]; [reflexivity|]. rewrite shown_app. apply app_nil_r. }
        split; [auto|]. intros [H|(a & b & m & H & _)]; [exact H|discriminate H].
  Qed.

  (* Nothing begins as long as the queue is blocked *)
  Lemma blocked_on (l' : list event) (s : queue) i : q_running s = true -> q_active s = [i] -> q_ready s = [] -> (forall a b m, ~ In (Settle i a b m) l') -> q_log (fold_left step l' s) = q_log s.
  Proof.
    revert s. induction l' as [|e l' IH]; intros s R A0 D N; [reflexivity|]. cbn [fold_left]. assert (forall a b m, ~ In (Settle i a b m) l') as N' by (intros a b m H; apply (N a b m); right; exact H).
    destruct e as [c|j a b m|j]; cbn [step].
    - unfold call, trigger, enqueue; cbn [q_running]. rewrite R. rewrite IH; auto.
    - rewrite A0. cbn [existsb]. destruct (Nat.eqb j i) eqn:E; cbn [orb]; [|apply IH; auto]. apply Nat.eqb_eq in E as ->. destruct (N a b m). left. reflexivity.
    - rewrite D. cbn [existsb]. apply IH; auto.
  Qed.
  Lemma blocked (l' : list event) (s : queue) : q_running s = true -> q_active s = [] -> q_ready s = [] -> q_log (fold_left step l' s) = q_log s.
  Proof.
    revert s. induction l' as [|e l' IH]; intros s R A0 D; [reflexivity|]. cbn [fold_left]. destruct e as [c|j a b m|j]; cbn [step].
    - unfold call, trigger, enqueue; cbn [q_running]. rewrite R. rewrite IH; auto.
    - rewrite A0. apply IH; auto.
    - rewrite D. apply IH; auto.
  Qed.
  (* While a route is executed, nothing happens but requests being added: nothing begins and nothing is shown before it ends *)
  Theorem C94_waits (l l' : list event) i : executing i (q_log (run l)) -> (forall a b m, ~ In (Settle i a b m) l') -> q_log (run (l ++ l')) = q_log (run l).
  Proof.
    intros E N. unfold run. rewrite fold_left_app. apply executing_iff in E. destruct (run_inv l) as [_ _ _ Ip].
    destruct Ip as [(R0 & W & A0 & D & C & X)|[(j & R0 & A0 & D & C & X)|[(j & R0 & A0 & D & C & X)|(R0 & A0 & D & C & X & _)]]]; rewrite A0 in E; try discriminate E. injection E as ->. apply (blocked_on l' (run l) i); auto.
  Qed.
End Props.
Print Assumptions C94_sequential.
Print Assumptions C94_order.
Print Assumptions C94_no_loss.
Print Assumptions C94_completion.
Print Assumptions C94_reported.
Print Assumptions C94_waits.

(* Navigation always works: false. If a route hangs, nothing else can be opened any more, whatever the user does *)
Theorem C94_hanging_refuted : ~ (forall l : list (event nat), exists l', no_requests l' /\ (forall a b m, ~ In (Settle 0 a b m) l') /\ started (q_log (run (l ++ l'))) = requests 0 l).
Proof.
  intros H. destruct (H [Call 7; Call 8]%nat) as (l' & _ & N & E). rewrite (C94_waits [Call 7; Call 8]%nat l' 0) in E; [discriminate E| |exact N].
  split; [exists 7%nat; left; reflexivity|intros []].
Qed.
Print Assumptions C94_hanging_refuted.
(* Nor if the routes end: if the message about an error cannot be shown, the queue is blocked for ever *)
Theorem C94_message_refuted : ~ (forall l : list (event nat), exists l', no_requests l' /\ started (q_log (run (l ++ l'))) = requests 0 l).
Proof.
  intros H. destruct (H [Call 7; Settle 0 true false false; Call 8]%nat) as (l' & _ & E). unfold run in E. rewrite fold_left_app, blocked in E; [discriminate E|reflexivity..].
Qed.
Print Assumptions C94_message_refuted.

(* Three requests during the first one, which fails *)
Example ex_queue : let l := [Call "a"; Call "b"; Settle 0 true false true; Call "c"; Resume 0; Call "b"; Settle 1 true true true]%string in
  q_log (run l) = [Start 0 "a"; Shown 0; End 0; Start 1 "b"; End 1]%string /\ requests 0 l = [(0, "a"); (1, "b"); (2, "c"); (3, "b")]%nat%string /\ messages_work l /\
  executing 2 (q_log (run (l ++ [Resume 1]))) /\ (forall i, ~ executing i (q_log (run l))) /\ q_waiting (run l) <> [].
Proof.
  cbn zeta. split; [reflexivity|]. split; [reflexivity|]. split; [intros i a b m H; cbn in H; repeat destruct H as [H|H]; try discriminate H; try (injection H as <- <- <- <-; reflexivity); destruct H|].
  split; [apply executing_iff; reflexivity|]. split; [intros i X; apply executing_iff in X; discriminate X|discriminate].
Qed.
