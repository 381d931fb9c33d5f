(* C110: messages to the user. *)
From Coq Require Import String NArith.
From Verif.Lib Require Import Base.
From Verif.Model Require Import Notices.
From Verif.Spec Require Import Notices.
Local Open Scope list_scope.

Definition ok (s : list_of) : Prop := newest_first (map number (rows s)) /\ Forall (fun n => (n < count s)%nat) (map number (rows s)).
Lemma nf_filter (f : row -> bool) l : newest_first (map number l) -> newest_first (map number (filter f l)).
Proof.
  induction l as [|r l IH]; simpl; [auto|]. intros [A B]. destruct (f r); simpl; [|auto]. split; [|auto].
  rewrite Forall_forall in *. intros y Y. apply A. apply in_map_iff in Y. destruct Y as (z & <- & Z). apply filter_In in Z. apply in_map, Z.
Qed.
Lemma lt_filter (f : row -> bool) l (P : nat -> Prop) : Forall P (map number l) -> Forall P (map number (filter f l)).
Proof. rewrite !Forall_forall. intros H y Y. apply H. apply in_map_iff in Y. destruct Y as (z & <- & Z). apply filter_In in Z. apply in_map, Z. Qed.
Lemma ok_step s e : ok s -> ok (step s e).
Proof.
  intros [A B]. destruct e as [t h|n|d|]; simpl.
  - unfold ok; simpl. split; [split|].
    + apply lt_filter, B.
    + apply nf_filter, A.
    + constructor; [lia|]. apply lt_filter. eapply Forall_impl; [|exact B]. simpl. lia.
  - unfold click. destruct (existsb _ _); [|split; assumption]. split; simpl; [apply nf_filter, A|apply lt_filter, B].
  - unfold ok; simpl. rewrite map_map. simpl. split; assumption.
  - split; simpl; auto.
Qed.
Lemma ok_run h : ok (run h).
Proof. induction h as [|e h IH] using rev_ind; [split; simpl; auto|]. unfold run. rewrite fold_left_app. simpl. apply ok_step, IH. Qed.
Lemma count_fold h s : count (fold_left step h s) = (count s + messages h)%nat.
Proof.
  revert s; induction h as [|e h IH]; intros s; simpl; [lia|]. rewrite IH. destruct e; simpl; try lia.
  unfold click. destruct (existsb _ _); simpl; lia.
Qed.
Lemma count_run h : count (run h) = messages h.
Proof. unfold run. rewrite count_fold. reflexivity. Qed.
Lemma unique l r r' : newest_first (map number l) -> In r l -> In r' l -> number r = number r' -> r = r'.
Proof.
  induction l as [|x l IH]; simpl; [tauto|]. intros [A B] [->|I] [->|I'] E; auto.
  - exfalso. rewrite Forall_forall in A. specialize (A (number r') (in_map _ _ _ I')). lia.
  - exfalso. rewrite Forall_forall in A. specialize (A (number r) (in_map _ _ _ I)). lia.
Qed.
Lemma seen_in s n : In n (seen s) <-> exists r, In r (rows s) /\ visible r = true /\ number r = n.
Proof.
  unfold seen. rewrite in_map_iff. split.
  - intros (r & E & I). apply filter_In in I. exists r; tauto.
  - intros (r & I & V & E). exists r. split; [exact E|]. apply filter_In; tauto.
Qed.
(* What is gone or hidden does not come back *)
Definition gone (n : nat) (s : list_of) : Prop := (n < count s)%nat /\ forall r, In r (rows s) -> number r = n -> visible r = false.
Lemma gone_step n s e : gone n s -> gone n (step s e).
Proof.
  intros [L G]. destruct e as [t h|m|d|]; simpl.
  - split; simpl; [lia|]. intros r [<-|I] E; [simpl in E; lia|]. apply filter_In in I. apply G; tauto.
  - unfold click. destruct (existsb _ _); [|split; assumption]. split; simpl; [exact L|]. intros r I E. apply filter_In in I. apply G; tauto.
  - split; simpl; [exact L|]. intros r I E. apply in_map_iff in I. destruct I as (q & <- & I). specialize (G q I E). unfold visible in *. simpl.
    destruct (left q) as [[|p]|]; try discriminate. simpl. reflexivity.
  - split; simpl; [exact L|]. intros r [].
Qed.
Lemma gone_fold n h s : gone n s -> gone n (fold_left step h s).
Proof. revert s; induction h as [|e h IH]; intros s G; simpl; [exact G|]. apply IH, gone_step, G. Qed.
Lemma gone_seen n s : gone n s -> ~ In n (seen s).
Proof. intros [_ G] I. apply seen_in in I. destruct I as (r & I & V & E). specialize (G r I E). congruence. Qed.

Definition lives (r : row) (h : list event) : Prop :=
  ~ In (Click (number r)) h /\ ~ In Reset h /\ (hide_next r = true -> messages h = 0%nat) /\ (forall l, left r = Some l -> (time h < l)%N).
Lemma follow h : forall s r, ok s -> In r (rows s) -> visible r = true -> (In (number r) (seen (fold_left step h s)) <-> lives r h).
Proof.
  induction h as [|e h IH]; intros s r K I V.
  - simpl. split.
    + intros _. repeat split; simpl; auto. intros l E. unfold visible in V. rewrite E in V. destruct l; [discriminate|lia].
    + intros _. apply seen_in. exists r; auto.
  - pose proof (ok_step s e K) as K'. simpl fold_left.
    assert (L : (number r < count s)%nat) by (destruct K as [_ B]; rewrite Forall_forall in B; apply B, in_map, I).
    destruct e as [t b|m|d|].
    + destruct (hide_next r) eqn:Hn.
      * split.
        -- intros Q. exfalso. revert Q. apply gone_seen, gone_fold. simpl. split; simpl; [lia|]. intros q [<-|J] E; [simpl in E; lia|].
           apply filter_In in J. destruct J as [J N]. assert (q = r) as -> by (apply (unique (rows s)); [apply K|assumption..]). rewrite Hn in N. discriminate.
        -- intros (_ & _ & Q & _). rewrite Hn in Q. specialize (Q eq_refl). discriminate.
      * rewrite (IH (step s (Message t b)) r K').
        -- unfold lives. rewrite Hn. simpl. intuition congruence.
        -- simpl. right. apply filter_In. rewrite Hn. auto.
        -- exact V.
    + destruct (Nat.eq_dec m (number r)) as [->|N].
      * split.
        -- intros Q. exfalso. revert Q. apply gone_seen, gone_fold. simpl. unfold click.
           assert (existsb (fun q => Nat.eqb (number q) (number r) && visible q) (rows s) = true) as ->.
           { apply existsb_exists. exists r. split; [exact I|]. rewrite Nat.eqb_refl, V. reflexivity. }
           split; simpl; [exact L|]. intros q J E. apply filter_In in J. destruct J as [_ J]. rewrite E, Nat.eqb_refl in J. discriminate.
        -- intros (Q & _). destruct Q. left; reflexivity.
      * rewrite (IH (step s (Click m)) r K').
        -- unfold lives. simpl. assert (Click m <> Click (number r)) by congruence. intuition congruence.
        -- simpl. unfold click. destruct (existsb _ _); [|exact I]. simpl. apply filter_In. split; [exact I|]. apply Bool.negb_true_iff, Nat.eqb_neq. congruence.
        -- exact V.
    + destruct (visible (wait_row d r)) eqn:Vw.
      * change (number r) with (number (wait_row d r)). rewrite (IH (step s (Wait d)) (wait_row d r) K'); [|simpl; apply in_map, I|exact Vw].
        unfold lives. simpl. split; intros (A & B & C & D); (split; [intuition congruence|]); (split; [intuition congruence|]); (split; [exact C|]); intros l E.
        -- rewrite E in D. specialize (D _ eq_refl). lia.
        -- destruct (left r) as [l'|] eqn:El; [|discriminate]. injection E as <-. specialize (D _ eq_refl). lia.
      * split.
        -- intros Q. exfalso. revert Q. apply gone_seen, gone_fold. simpl. split; simpl; [exact L|]. intros q J E. apply in_map_iff in J. destruct J as (q' & <- & J).
           assert (q' = r) as -> by (apply (unique (rows s)); [apply K|assumption..]). exact Vw.
        -- intros (_ & _ & _ & D). exfalso. unfold visible, wait_row in Vw. simpl in Vw. simpl in D. destruct (left r) as [l|]; [|discriminate].
           specialize (D _ eq_refl). destruct (l - d)%N eqn:Z; [lia|discriminate].
    + split.
      * intros Q. exfalso. revert Q. apply gone_seen, gone_fold. split; simpl; [exact L|]. intros q [].
      * intros (_ & Q & _). destruct Q. left; reflexivity.
Qed.

Lemma fade_brief type : let t := if String.eqb type "" then "E"%string else type in
  (brief type -> fade_time t = 3000%N) /\ (~ brief type -> fade_time t = 0%N).
Proof.
  unfold brief, fade_time. split.
  - intros [->| ->]; reflexivity.
  - intros N. destruct (String.eqb_spec type ""); [reflexivity|]. destruct (String.eqb_spec type "E"); [reflexivity|]. destruct (String.eqb_spec type "W"); [reflexivity|].
    destruct (String.eqb_spec type "S"); [tauto|]. destruct (String.eqb_spec type "I"); [tauto|]. reflexivity.
Qed.

(* C110: whatever happened before and whatever happens later, a message can be seen exactly as long as it has to: errors and warnings (and unknown types) until they are clicked,
   the others for 3 seconds, or until the next message if it is one of those which make room *)
Theorem C110_shown h type hide h' : In (messages h) (seen (run (h ++ Message type hide :: h'))) <-> stays (messages h) type hide h'.
Proof.
  unfold run. rewrite fold_left_app. simpl fold_left. change (fold_left step h nothing) with (run h).
  set (r := {| number := count (run h); left := if (0 <? fade_time (if String.eqb type "" then "E"%string else type))%N then Some (fade_time (if String.eqb type "" then "E"%string else type)) else None; hide_next := hide |}).
  assert (I : In r (rows (message type hide (run h)))) by (left; reflexivity).
  destruct (fade_brief type) as [F1 F2]. simpl in F1, F2.
  assert (D : brief type \/ ~ brief type).
  { unfold brief. destruct (String.eqb_spec type "S"), (String.eqb_spec type "I"); tauto. }
  assert (V : visible r = true). { unfold visible, r. simpl. destruct D as [D|D]; [rewrite (F1 D)|rewrite (F2 D)]; reflexivity. }
  pose proof (follow h' _ r (ok_step _ (Message type hide) (ok_run h)) I V) as Q. unfold lives in Q. unfold r in Q. cbn [number left hide_next] in Q. rewrite count_run in Q.
  change (step (run h) (Message type hide)) with (message type hide (run h)) in Q. rewrite Q. unfold stays. clear Q.
  destruct D as [D|D].
  - rewrite (F1 D). change (0 <? 3000)%N with true. cbn iota. split; intros (A & B & C & E); repeat (split; [assumption|]).
    + intros _. apply E; reflexivity.
    + intros l [= <-]. apply E, D.
  - rewrite (F2 D). change (0 <? 0)%N with false. cbn iota. split; intros (A & B & C & E); repeat (split; [assumption|]).
    + intros Q. destruct (D Q).
    + discriminate.
Qed.
Print Assumptions C110_shown.

(* C110: nothing else is shown: each number is that of a message which has come *)
Theorem C110_only h n : In n (seen (run h)) -> exists a type hide b, h = a ++ Message type hide :: b /\ messages a = n.
Proof.
  intros I. assert (L : (n < messages h)%nat).
  { apply seen_in in I. destruct I as (r & I & _ & <-). rewrite <- count_run. destruct (ok_run h) as [_ B]. rewrite Forall_forall in B. apply B, in_map, I. }
  clear I. revert n L. induction h as [|e h IH]; intros n L; simpl in L; [lia|].
  destruct e as [t b|m|d|]; try (destruct (IH n L) as (a & t' & b' & c & -> & E); exists (Click m :: a), t', b', c; split; [reflexivity|exact E]);
    try (destruct (IH n L) as (a & t' & b' & c & -> & E); exists (Wait d :: a), t', b', c; split; [reflexivity|exact E]);
    try (destruct (IH n L) as (a & t' & b' & c & -> & E); exists (Reset :: a), t', b', c; split; [reflexivity|exact E]).
  destruct n as [|n]; [exists [], t, b, h; split; reflexivity|]. destruct (IH n ltac:(lia)) as (a & t' & b' & c & -> & E). exists (Message t b :: a), t', b', c. split; [reflexivity|simpl; lia].
Qed.
Print Assumptions C110_only.

(* C110: the newest message is at the top, below it the others in the order they came, each once *)
Theorem C110_order h : newest_first (seen (run h)) /\ (forall type hide, hd_error (seen (run (h ++ [Message type hide]))) = Some (messages h)).
Proof.
  split; [apply nf_filter, ok_run|]. intros type hide. unfold run. rewrite fold_left_app. simpl fold_left. change (fold_left step h nothing) with (run h). unfold message, seen. cbn [rows filter].
  assert (V : visible {| number := count (run h); left := if (0 <? fade_time (if String.eqb type "" then "E"%string else type))%N then Some (fade_time (if String.eqb type "" then "E"%string else type)) else None; hide_next := hide |} = true).
  { unfold visible. cbn [left]. destruct (fade_time _) as [|p]; reflexivity. }
  rewrite V. simpl. rewrite count_run. reflexivity.
Qed.
Print Assumptions C110_order.

(* C110: a click on a message which can be seen runs its callback, other clicks do not; after it the message never comes back *)
Theorem C110_click h n : callbacks (run (h ++ [Click n])) = callbacks (run h) ++ (if existsb (Nat.eqb n) (seen (run h)) then [n] else []) /\
  (forall h', ~ In n (seen (run (h ++ Click n :: h'))) \/ (messages h <= n)%nat).
Proof.
  assert (X : existsb (fun r => Nat.eqb (number r) n && visible r) (rows (run h)) = existsb (Nat.eqb n) (seen (run h))).
  { apply Bool.eq_iff_eq_true. rewrite !existsb_exists. split.
    - intros (r & I & E). apply andb_prop in E. destruct E as [E V]. apply Nat.eqb_eq in E. exists n. split; [apply seen_in; exists r; auto|apply Nat.eqb_refl].
    - intros (m & I & E). apply Nat.eqb_eq in E. subst m. apply seen_in in I. destruct I as (r & I & V & E). exists r. split; [exact I|]. rewrite E, Nat.eqb_refl, V. reflexivity. }
  split.
  - unfold run at 1. rewrite fold_left_app. simpl fold_left. change (fold_left step h nothing) with (run h). unfold click. rewrite X. clear X. destruct (existsb (Nat.eqb n) (seen (run h))); [reflexivity|symmetry; apply List.app_nil_r].
  - intros h'. destruct (Nat.lt_ge_cases n (messages h)) as [L|L]; [left|right; exact L]. unfold run. rewrite fold_left_app. simpl fold_left. change (fold_left step h nothing) with (run h).
    apply gone_seen, gone_fold. unfold click. destruct (existsb (fun r => Nat.eqb (number r) n && visible r) (rows (run h))) eqn:E.
    + split; simpl; [rewrite count_run; exact L|]. intros r I N. apply filter_In in I. destruct I as [_ I]. rewrite N, Nat.eqb_refl in I. discriminate.
    + split; [rewrite count_run; exact L|]. intros r I N. destruct (visible r) eqn:V; [|reflexivity].
      rewrite <- Bool.not_true_iff_false, existsb_exists in E. destruct E. exists r. split; [exact I|]. rewrite N, Nat.eqb_refl, V. reflexivity.
Qed.
Print Assumptions C110_click.

(* An error, an info, a message which makes room, then an unknown type, in time *)
Example ex_notices :
  seen (run [Message "" false; Message "I" false; Message "E" true; Wait 2999]) = [2; 1; 0]%nat /\
  seen (run [Message "" false; Message "I" false; Message "E" true; Wait 2999; Message "X" false]) = [3; 1; 0]%nat /\
  seen (run [Message "" false; Message "I" false; Message "E" true; Wait 2999; Message "X" false; Wait 1; Click 0]) = [3]%nat.
Proof. vm_compute. repeat split; reflexivity. Qed.
