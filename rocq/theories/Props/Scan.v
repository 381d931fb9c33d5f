(* C96: a search for devices ends with the first device which answers, or with none, and says so once. *)
From Coq Require Import String.
From Verif.Lib Require Import Base.
From Verif.Model Require Import Scan.
From Verif.Spec Require Import Scan.
Open Scope string_scope.
Local Open Scope list_scope.
Local Open Scope nat_scope.

Section Scan.
  Variable ports : list string.
  Hypothesis different : NoDup ports.
  Local Notation n := (length ports).

  Lemma name_inj i j : i < n -> j < n -> nth i ports "" = nth j ports "" -> i = j.
  Proof. intros. apply (proj1 (NoDup_nth ports "") different); assumption. Qed.

  (* As long as nothing has been found: the open attempts are exactly the ones in the map, and they are the ones without an event *)
  Record pending (l : list event) (s : scan) : Prop := {
    p_ports : c_ports s = ports;
    p_open : forall i, In i (c_open s) <-> i < n /\ ~ In (Timeout i) l;
    p_map : forall k i, In (k, i) (c_map s) <-> In i (c_open s) /\ k = nth i ports "";
    p_none : forall i, i < n -> ~ in_time i l;
    p_success : c_success s = false
  }.
  Definition over (s : scan) : Prop := c_open s = [].

  Lemma in_time_app i a b : in_time i a -> in_time i (a ++ b).
  Proof. intros (x & y & -> & H). exists x, (y ++ b). rewrite <- app_assoc. auto. Qed.
  Lemma in_time_snoc i l e : in_time i (l ++ [e]) <-> in_time i l \/ (e = Answer i /\ ~ In (Timeout i) l).
  Proof.
    split.
    - intros (a & b & E & H). destruct b as [|x b] using rev_ind; [apply app_inj_tail in E as [-> ->]; auto|]. clear IHb. rewrite app_comm_cons, app_assoc in E. apply app_inj_tail in E as [-> ->]. left. exists a, b. auto.
    - intros [H|[-> H]]; [apply in_time_app, H|]. exists l, []. auto.
  Qed.
  Lemma set_in k v m x : (forall y, In y m -> fst y <> k) -> In x (set k v m) <-> In x m \/ x = (k, v).
  Proof.
    induction m as [|[k' v'] m IH]; intros H; cbn; [intuition congruence|]. destruct (String.eqb_spec k' k) as [->|N]; [destruct (H (k, v')); [left; reflexivity|reflexivity]|]. cbn. rewrite IH by (intros y Y; apply H; right; exact Y). tauto.
  Qed.
  Lemma register_in i l m x : NoDup l -> (forall y, In y m -> ~ In (fst y) l) -> In x (register i l m) <-> In x m \/ exists j, j < length l /\ x = (nth j l "", i + j).
  Proof.
    revert i m. induction l as [|k l IH]; intros i m D H; cbn [register length].
    - split; [auto|]. intros [X|(j & J & _)]; [exact X|lia].
    - apply NoDup_cons_iff in D as [D1 D2]. rewrite IH; [|exact D2|].
      + rewrite set_in by (intros y Y E; apply (H y Y); left; auto). split.
        * intros [[X| ->]|(j & J & ->)]; [auto|right; exists 0; split; [lia|]; cbn; f_equal; lia|right; exists (S j); split; [lia|]; cbn; f_equal; lia].
        * intros [X|([|j] & J & ->)]; [auto|left; right; cbn; f_equal; lia|right; exists j; split; [lia|]; cbn; f_equal; lia].
      + intros y Y Q. apply set_in in Y; [|intros z Z E; apply (H z Z); left; auto]. destruct Y as [Y| ->]; [apply (H y Y); right; exact Q|contradiction].
  Qed.
  Lemma begin_pending : ports <> [] -> pending [] (begin ports) /\ c_log (begin ports) = [].
  Proof.
    intros E. assert (begin ports = {| c_ports := ports; c_map := register 0 ports []; c_open := seq 0 (length ports); c_success := false; c_log := [] |}) as -> by (destruct ports; [contradiction|reflexivity]).
    split; [|reflexivity]. constructor; cbn [c_ports c_map c_open c_success].
    - reflexivity.
    - intros i. rewrite in_seq. cbn. intuition lia.
    - intros k i. rewrite register_in by (exact different || (intros y [])). rewrite in_seq. split.
      + intros [[]|(j & J & X)]. injection X as -> ->. split; [cbn; lia|reflexivity].
      + intros [J ->]. right. exists i. split; [lia|reflexivity].
    - intros i _ (a & b & H & _). destruct a; discriminate H.
    - reflexivity.
  Qed.
  Lemma is_open_in s i : is_open s i = true <-> In i (c_open s).
  Proof. unfold is_open. rewrite existsb_exists. split; [intros (j & J & E); apply Nat.eqb_eq in E as <-; exact J|intros H; exists i; split; [exact H|apply Nat.eqb_refl]]. Qed.
  Lemma settle_open s i j : In j (c_open (settle i s)) <-> In j (c_open s) /\ j <> i.
  Proof. cbn [settle c_open]. rewrite filter_In, negb_true_iff, Nat.eqb_neq. intuition congruence. Qed.
  Lemma settle_map s i x : In x (c_map (settle i s)) <-> In x (c_map s) /\ fst x <> name s i.
  Proof. cbn [settle c_map]. unfold delete. rewrite filter_In, negb_true_iff, String.eqb_neq. tauto. Qed.
  (* Rejecting the others: nothing is open afterwards, and nothing is told *)
  Lemma reject_all_ok m s : c_success s = true -> (forall j, In j (c_open s) -> In j (map snd m)) ->
    c_open (reject_all m s) = [] /\ c_log (reject_all m s) = c_log s /\ c_success (reject_all m s) = true /\ c_ports (reject_all m s) = c_ports s.
  Proof.
    revert s. induction m as [|[k i] m IH]; intros s S H; cbn [reject_all].
    - repeat split; [|exact S]. destruct (c_open s) as [|j o]; [reflexivity|]. destruct (H j). left. reflexivity.
    - assert (rejected (settle i s) = settle i s) as -> by (unfold rejected; cbn [settle c_success]; rewrite S; reflexivity).
      destruct (IH (settle i s)) as (A & B & C & D); [exact S|intros j J; apply settle_open in J as [J N]; apply H in J; destruct J as [J|J]; [cbn in J; congruence|exact J]|]. auto.
  Qed.

  Lemma over_step s e : over s -> step s e = s.
  Proof. unfold over. intros O. destruct e; cbn [step]; unfold is_open; rewrite O; reflexivity. Qed.
  Lemma over_steps s l : over s -> fold_left step l s = s.
  Proof. revert s. induction l as [|e l IH]; intros s O; cbn; [reflexivity|]. rewrite (over_step s e O). apply IH, O. Qed.

  (* The state after any events: still pending, or found, or failed *)
  Definition state (l : list event) (s : scan) : Prop :=
    c_ports s = ports /\
    ((pending l s /\ c_log s = [] /\ c_open s <> []) \/ (exists i, first n i l /\ over s /\ c_log s = [Found (nth i ports "")]) \/ (nobody n l /\ over s /\ c_log s = [Failed])).
  Lemma first_app i l l' : first n i l -> first n i (l ++ l').
  Proof. intros (I & a & b & -> & H). split; [exact I|]. exists a, (b ++ l'). rewrite <- app_assoc. auto. Qed.
  Lemma in_time_late i l e : ~ in_time i l -> In (Timeout i) l -> ~ in_time i (l ++ [e]).
  Proof. intros N T H. apply in_time_snoc in H as [H|[_ H]]; contradiction. Qed.
  Lemma step_state l s e : state l s -> state (l ++ [e]) (step s e).
  Proof.
    intros [Hp [(P & L & O)|[(i & F & O & L)|(F & O & L)]]].
    - destruct P as [Pp Po Pm Pn Ps]. destruct e as [i|i]; cbn [step].
      + destruct (is_open s i) eqn:X.
        * apply is_open_in in X. pose proof (proj1 (Po i) X) as [I T]. set (s1 := succeed (settle i s)).
          destruct (reject_all_ok (c_map s1) s1) as (A & B & C & D); [reflexivity| |].
          { intros j J. change (In j (c_open (settle i s))) in J. apply settle_open in J as [J N]. apply in_map_iff. exists (nth j ports "", j). split; [reflexivity|].
            change (In (nth j ports "", j) (c_map (settle i s))). apply settle_map. split; [apply Pm; auto|]. cbn. unfold name. rewrite Pp. intros E. apply N. apply name_inj; [apply Po in J; tauto|exact I|exact E]. }
          cbn zeta. split; [cbn [tell c_ports]; rewrite D; exact Hp|]. right. left. exists i. split; [|split].
          -- split; [exact I|]. exists l, []. auto.
          -- exact A.
          -- cbn [tell c_log]. rewrite B. change (c_log s1) with (c_log s). rewrite L. unfold name. rewrite Pp. reflexivity.
        * split; [exact Hp|]. left. split; [|auto]. assert (i < n -> In (Timeout i) l) as Q.
          { intros I. destruct (in_dec (fun x y : event => ltac:(decide equality; apply Nat.eq_dec)) (Timeout i) l) as [H|H]; [exact H|]. assert (is_open s i = true) as Y by (apply is_open_in, Po; auto). congruence. }
          constructor; auto.
          -- intros j. rewrite Po, in_app_iff. cbn. intuition discriminate.
          -- intros j J H. apply in_time_snoc in H as [H|[H H']]; [apply (Pn j J H)|]. injection H as ->. auto.
      + destruct (is_open s i) eqn:X.
        * apply is_open_in in X. pose proof (proj1 (Po i) X) as [I T].
          assert (pending (l ++ [Timeout i]) (settle i s)) as P'.
          { constructor; cbn [settle c_ports c_success]; auto.
            - intros j. rewrite settle_open, Po, in_app_iff. cbn. intuition congruence.
            - intros k j. rewrite settle_map, settle_open, Pm. cbn. unfold name. rewrite Pp. split.
              + intros [[A ->] B]. repeat split; auto. intros ->. contradiction.
              + intros [[A B] ->]. repeat split; auto. intros E. apply B. apply name_inj; [apply Po in A; tauto|exact I|exact E].
            - intros j J H. apply in_time_snoc in H as [H|[H _]]; [apply (Pn j J H)|discriminate H]. }
          unfold rejected. cbn [settle c_success]. rewrite Ps. cbn [negb andb]. change (delete (name s i) (c_map s)) with (c_map (settle i s)).
          destruct (c_map (settle i s)) as [|[k j] m] eqn:M.
          -- assert (c_open (settle i s) = []) as E.
             { destruct (c_open (settle i s)) as [|j o] eqn:Y; [reflexivity|]. assert (In (nth j ports "", j) (c_map (settle i s))) as Z by (apply P'; rewrite Y; split; [left; reflexivity|reflexivity]). rewrite M in Z. destruct Z. }
             split; [exact Hp|]. right. right. split; [|split; [exact E|cbn [tell c_log settle]; rewrite L; reflexivity]].
             intros j J. split; [apply P', J|]. destruct (in_dec (fun x y : event => ltac:(decide equality; apply Nat.eq_dec)) (Timeout j) (l ++ [Timeout i])) as [H|H]; [exact H|].
             assert (In j (c_open (settle i s))) as Z by (apply P'; auto). rewrite E in Z. destruct Z.
          -- split; [exact Hp|]. left. split; [exact P'|]. split; [exact L|]. assert (In j (c_open (settle i s))) as Z by (apply (p_map _ _ P' k j); rewrite M; left; reflexivity). destruct (c_open (settle i s)); [destruct Z|discriminate].
        * split; [exact Hp|]. left. split; [|auto]. constructor; auto.
          -- intros j. rewrite Po, in_app_iff. cbn. split; [intros [A B]; split; [exact A|]; intros [H|[H|[]]]; [auto|]|tauto]. injection H as <-. assert (is_open s i = true) as Y by (apply is_open_in, Po; auto). congruence.
          -- intros j J H. apply in_time_snoc in H as [H|[H _]]; [apply (Pn j J H)|discriminate H].
    - rewrite (over_step s e O). split; [exact Hp|]. right. left. exists i. split; [apply first_app, F|auto].
    - rewrite (over_step s e O). split; [exact Hp|]. right. right. split; [|auto]. intros i I. destruct (F i I) as [A B]. split; [apply in_time_late; assumption|apply in_or_app; auto].
  Qed.
  Lemma run_state l : state l (run ports l).
  Proof.
    induction l as [|e l IH] using rev_ind.
    - cbn. destruct (list_eq_dec string_dec ports []) as [E|E].
      + unfold state. rewrite E. split; [reflexivity|]. right. right. split; [intros i I; cbn in I; lia|]. split; reflexivity.
      + destruct begin_pending as [P L]; [exact E|]. split; [apply P|]. left. split; [exact P|]. split; [exact L|]. destruct ports; [contradiction|discriminate].
    - unfold run in *. rewrite fold_left_app. apply step_state, IH.
  Qed.
  Lemma not_both l i : first n i l -> nobody n l -> False.
  Proof. intros (I & a & b & -> & T & _) N. apply (N i I). exists a, b. auto. Qed.
  Lemma first_unique l i j : first n i l -> first n j l -> i = j.
  Proof.
    intros (I & a & b & E & T & F) (J & a' & b' & E' & T' & F'). rewrite E in E'. clear E. revert a' T' F' E'. induction a as [|x a IH] using rev_ind.
    - intros [|y a'] T' F' E'; cbn in E'; injection E' as E1 E2; [exact E1|]. subst y. destruct (F' i I). exists [], a'. auto.
    - clear IH. intros a' T' F' E'. destruct (Nat.lt_trichotomy (length (a ++ [x])) (length a')) as [L|[L|L]].
      + assert (exists r, a' = (a ++ [x]) ++ Answer i :: r) as [r ->].
        { clear - L E'. revert a' L E'. induction (a ++ [x]) as [|y c IH]; intros [|z a'] L E'; cbn in *; try lia; injection E' as -> E'; [exists a'; reflexivity|]. destruct (IH a') as [r ->]; [lia|exact E'|]. exists r. reflexivity. }
        destruct (F' i I). exists (a ++ [x]), r. auto.
      + assert ((a ++ [x]) = a' /\ Answer i :: b = Answer j :: b') as [_ E].
        { clear - L E'. revert a' L E'. induction (a ++ [x]) as [|y c IH]; intros [|z a'] L E'; cbn in *; try lia; [auto|]. injection E' as -> E'. destruct (IH a') as [-> Q]; [lia|exact E'|auto]. }
        congruence.
      + assert (exists r, a ++ [x] = a' ++ Answer j :: r) as [r R].
        { clear - L E'. revert L E'. generalize (a ++ [x]). intros c. revert c. induction a' as [|z a' IH]; intros [|y c] L E'; cbn in *; try lia; injection E' as -> E'; [exists c; reflexivity|]. destruct (IH c) as [r ->]; [lia|exact E'|]. exists r. reflexivity. }
        destruct (F j J). rewrite R. exists a', r. auto.
  Qed.
End Scan.

(* The caller is told at most once, and never both that a device has been found and that there is none *)
Theorem C96_once_partial ports l : NoDup ports -> (length (c_log (run ports l)) <= 1)%nat.
Proof. intros D. destruct (run_state ports D l) as [_ [(_ & -> & _)|[(i & _ & _ & ->)|(_ & _ & ->)]]]; cbn; lia. Qed.
Print Assumptions C96_once_partial.
(* It is the first device which answers in time *)
Theorem C96_found_partial ports l k : NoDup ports -> In (Found k) (c_log (run ports l)) <-> exists i, first (length ports) i l /\ k = nth i ports "".
Proof.
  intros D. destruct (run_state ports D l) as [_ [(P & L & _)|[(i & F & _ & L)|(F & _ & L)]]]; rewrite L.
  - split; [intros []|]. intros (i & (I & a & b & -> & T & _) & _). destruct (p_none _ _ _ P i I). exists a, b. auto.
  - split; [intros [H|[]]; injection H as <-; exists i; auto|]. intros (j & J & ->). left. rewrite (first_unique ports l i j F J). reflexivity.
  - split; [intros [H|[]]; discriminate H|]. intros (i & I & _). destruct (not_both ports l i I F).
Qed.
Print Assumptions C96_found_partial.
(* None is reported if and only if nobody has answered in time and the time of all attempts is over; at once without any ports *)
Theorem C96_failed_partial ports l : NoDup ports -> In Failed (c_log (run ports l)) <-> nobody (length ports) l.
Proof.
  intros D. destruct (run_state ports D l) as [_ [(P & L & O)|[(i & F & _ & L)|(F & _ & L)]]]; rewrite L.
  - split; [intros []|]. intros N. destruct (c_open (run ports l)) as [|j o] eqn:E; [contradiction|]. assert (In j (c_open (run ports l))) as J by (rewrite E; left; reflexivity). apply (p_open _ _ _ P) in J as [J T]. destruct T. apply (N j J).
  - split; [intros [H|[]]; discriminate H|]. intros N. destruct (not_both ports l i F N).
  - split; [auto|]. intros _. left. reflexivity.
Qed.
Print Assumptions C96_failed_partial.
(* It is always told in the end: at the latest when the time of all attempts is over *)
Theorem C96_told_partial ports l : NoDup ports -> (forall i, i < length ports -> In (Timeout i) l) -> exists r, c_log (run ports l) = [r].
Proof.
  intros D T. destruct (run_state ports D l) as [_ [(P & L & O)|[(i & F & _ & L)|(F & _ & L)]]]; [|eexists; exact L..].
  destruct (c_open (run ports l)) as [|j o] eqn:E; [contradiction|]. assert (In j (c_open (run ports l))) as J by (rewrite E; left; reflexivity). apply (p_open _ _ _ P) in J as [J N]. destruct N. apply T, J.
Qed.
Print Assumptions C96_told_partial.
(* Once it has been told, no attempt is left: nobody listens to any port any more, and later events have no effect *)
Theorem C96_clean_partial ports l l' : NoDup ports -> c_log (run ports l) <> [] -> c_open (run ports l) = [] /\ run ports (l ++ l') = run ports l.
Proof.
  intros D N. assert (over (run ports l)) as O by (destruct (run_state ports D l) as [_ [(_ & L & _)|[(i & _ & O & _)|(_ & O & _)]]]; [contradiction|exact O..]). split; [exact O|].
  unfold run. rewrite fold_left_app. apply over_steps, O.
Qed.
Print Assumptions C96_clean_partial.

(* Ports with the same name, as two controllers of the same type have: none is reported although a device is found later *)
Theorem C96_same_name_refuted : exists ports l, c_log (run ports l) = [Failed; Found "MIDI Captain"] /\ ports = ["MIDI Captain"; "MIDI Captain"].
Proof. exists ["MIDI Captain"; "MIDI Captain"], [Timeout 0; Answer 1]. split; reflexivity. Qed.
Print Assumptions C96_same_name_refuted.
(* ... or two are found, or none is reported twice *)
Theorem C96_twice_refuted : exists ports l l', c_log (run ports l) = [Found "MIDI Captain"; Found "MIDI Captain"] /\ c_log (run ports l') = [Failed; Failed].
Proof. exists ["MIDI Captain"; "MIDI Captain"], [Answer 0; Answer 1], [Timeout 0; Timeout 1]. split; reflexivity. Qed.
Print Assumptions C96_twice_refuted.
Definition port_dec (x y : port) : {x = y} + {x <> y}. Proof. decide equality; apply string_dec. Defined.
(* The hypothesis of the theorems above holds if all inputs have different names *)
Theorem C96_pairs_partial inputs outputs : (forall m k, In (m, k) inputs -> forall m', In (m', k) inputs -> m' = m) -> NoDup inputs -> NoDup outputs -> NoDup (pairs inputs outputs).
Proof.
  intros U I O. unfold pairs.
  assert (forall i l, NoDup l -> flat_map (fun o => if String.eqb (fst o) (fst i) && String.eqb (snd o) (snd i) then [snd o] else []) l = if in_dec port_dec i l then [snd i] else []) as One.
  { intros i l D. induction l as [|o l IH]; [reflexivity|]. cbn [flat_map]. apply NoDup_cons_iff in D as [D1 D2]. rewrite IH by exact D2. destruct (String.eqb (fst o) (fst i) && String.eqb (snd o) (snd i)) eqn:E.
    - apply andb_true_iff in E as [E1 E2]. apply String.eqb_eq in E1. apply String.eqb_eq in E2. assert (o = i) as -> by (destruct o, i; cbn in *; congruence).
      destruct (in_dec port_dec i l); [contradiction|]. destruct (in_dec port_dec i (i :: l)) as [_|N]; [reflexivity|destruct N; left; reflexivity].
    - cbn [app]. destruct (in_dec port_dec i l) as [Y|Y], (in_dec port_dec i (o :: l)) as [Z|Z]; try reflexivity; [destruct Z; right; exact Y|]. destruct Z as [->|Z]; [|contradiction]. rewrite !String.eqb_refl in E. discriminate E. }
  induction inputs as [|i inputs IH]; [constructor|]. cbn [flat_map]. rewrite One by exact O. apply NoDup_cons_iff in I as [I1 I2].
  assert (NoDup (flat_map (fun i => flat_map (fun o => if String.eqb (fst o) (fst i) && String.eqb (snd o) (snd i) then [snd o] else []) outputs) inputs)) as R by (apply IH; [intros m k H m' H'; apply (U m k); right; assumption|exact I2]).
  destruct (in_dec port_dec i outputs); [|exact R]. constructor; [|exact R]. intros H. apply in_flat_map in H as (x & X & H). rewrite One in H by exact O. destruct (in_dec port_dec x outputs); [|destruct H]. destruct H as [H|[]].
  apply I1. destruct i as [m k], x as [m' k']. cbn in H. subst k'. rewrite (U m' k (or_intror X) m (or_introl eq_refl)). exact X.
Qed.
Print Assumptions C96_pairs_partial.

(* The client: PySwitch is connected to the device found, or to the virtual client of the configuration if there is one *)
Theorem C96_client_partial known ports id r : (forall k, r = Found k -> In k ports /\ prefix "virtual" k = false) -> known id <> None ->
  finish known ports id r = Some match r with Found k => Device k | Failed => match known id with Some true => Virtual id | _ => Nobody end end.
Proof.
  intros H K. unfold finish. destruct r as [k|].
  - destruct (H k eq_refl) as [I P]. unfold connect. rewrite P. assert (existsb (String.eqb k) ports = true) as -> by (apply existsb_exists; exists k; split; [exact I|apply String.eqb_refl]). reflexivity.
  - unfold connect. assert (forall x, prefix "virtual" ("virtual-" ++ x) = true) as -> by (intros x; reflexivity). cbn zeta.
    assert (substring 8 (String.length ("virtual-" ++ id) - 8) ("virtual-" ++ id) = id) as ->.
    { change (String.length ("virtual-" ++ id) - 8) with (8 + String.length id - 8). replace (8 + String.length id - 8) with (String.length id) by lia. cbn. clear. induction id as [|c s IH]; cbn; [reflexivity|rewrite IH; reflexivity]. }
    destruct (known id) as [[]|]; [reflexivity..|contradiction].
Qed.
Print Assumptions C96_client_partial.
(* A device whose name begins like the one of a virtual client cannot be connected *)
Theorem C96_virtual_refuted : let known := fun id => if String.eqb id "kemper" then Some true else None in
  finish known ["virtual-kemper"] "kemper" (Found "virtual-kemper") = Some (Virtual "kemper") /\ finish known ["virtual MIDI bus"] "kemper" (Found "virtual MIDI bus") = None.
Proof. cbn zeta. split; reflexivity. Qed.
Print Assumptions C96_virtual_refuted.

(* What the user has chosen stays connected, whatever the ports do, if all searches were over *)
Lemma chosen_stays known ports l s : (forall x, In x (k_scans s) -> over (snd x)) -> (forall a, In a l -> exists k e, a = On k e) -> k_client (fold_left (act known ports) l s) = k_client s.
Proof.
  revert s. induction l as [|a l IH]; intros s O H; [reflexivity|]. cbn [fold_left]. destruct (H a (or_introl eq_refl)) as (k & e & ->). cbn [act]. destruct (nth_error (k_scans s) k) as [[id c]|] eqn:E.
  - assert (over c) as Oc by (apply (O (id, c)); apply (nth_error_In _ _ E)). rewrite (over_step c e Oc), skipn_all. cbn [results]. rewrite IH; [reflexivity| |intros b B; apply H; right; exact B].
    cbn [k_scans]. assert (forall (x : string * scan) l k, In x (replace k (id, c) l) -> x = (id, c) \/ In x l) as R.
    { clear. induction l as [|y l IH]; intros [|k] X; cbn in *; try tauto; [destruct X; auto|]. destruct X as [X|X]; [auto|]. destruct (IH k X); auto. }
    intros x X. apply R in X as [->|X]; [exact Oc|apply O, X].
  - apply IH; [exact O|intros b B; apply H; right; exact B].
Qed.
Theorem C96_choice_partial known ports l l' n : (forall x, In x (k_scans (acts known ports l)) -> c_open (snd x) = []) -> (forall a, In a l' -> exists k e, a = On k e) -> ~ prefix "virtual" n = true -> In n ports ->
  k_client (acts known ports (l ++ Choose n :: l')) = Device n.
Proof.
  intros O H V I. unfold acts. rewrite fold_left_app. cbn [fold_left]. rewrite chosen_stays; [|exact O|exact H]. cbn [act k_client connected]. unfold connect. destruct (prefix "virtual" n); [destruct V; reflexivity|].
  assert (existsb (String.eqb n) ports = true) as -> by (apply existsb_exists; exists n; split; [exact I|apply String.eqb_refl]). reflexivity.
Qed.
Print Assumptions C96_choice_partial.
(* Searches go on when the user chooses a client: PySwitch is disconnected from it when they end *)
Theorem C96_race_refuted : let known := fun id => if String.eqb id "kemper" then Some true else if String.eqb id "boomerang" then Some false else None in
  k_client (acts known ["Profiler"] [Search "kemper"; Choose "Profiler"; On 0 (Timeout 0)]) = Virtual "kemper" /\
  k_client (acts known ["Profiler"] [Search "boomerang"; Search "kemper"; On 1 (Answer 0); On 0 (Timeout 0)]) = Nobody.
Proof. cbn zeta. split; reflexivity. Qed.
Print Assumptions C96_race_refuted.
Example ex_choice : let known := fun id => if String.eqb id "kemper" then Some true else None in
  let l := [Search "kemper"; On 0 (Timeout 0)] in (forall x, In x (k_scans (acts known ["Profiler"] l)) -> c_open (snd x) = []) /\ k_client (acts known ["Profiler"] l) = Virtual "kemper" /\
  k_client (acts known ["Profiler"] (l ++ [Choose "Profiler"; On 0 (Answer 0)])) = Device "Profiler".
Proof. cbn zeta. split; [intros x [<-|[]]; reflexivity|]. split; reflexivity. Qed.

(* Three ports: the first one times out and answers too late, the third one is found *)
Example ex_scan : let ports := ["A"; "B"; "C"] in let l := [Timeout 0; Answer 0; Answer 2; Answer 1; Timeout 1] in
  NoDup ports /\ c_log (run ports l) = [Found "C"] /\ first 3 2 l /\ c_log (run ports [Timeout 1; Timeout 0; Timeout 2]) = [Failed] /\ nobody 3 [Timeout 1; Timeout 0; Timeout 2].
Proof.
  cbn zeta. split; [repeat constructor; cbn; intuition discriminate|]. split; [reflexivity|]. split.
  - split; [lia|]. exists [Timeout 0; Answer 0], [Answer 1; Timeout 1]. split; [reflexivity|]. split; [cbn; intuition discriminate|]. intros j J (a & b & E & H).
    destruct a as [|x [|y a]]; cbn in E; try discriminate E; [|destruct a; discriminate E]. injection E as <- <- _. apply H. left. reflexivity.
  - split; [reflexivity|]. apply (C96_failed_partial ["A"; "B"; "C"] [Timeout 1; Timeout 0; Timeout 2]); [repeat constructor; cbn; intuition discriminate|]. left. reflexivity.
Qed.
