(* C119: connecting the emulator to a client device. *)
From Coq Require Import String Ascii Lia.
From Verif.Lib Require Import Base.
From Verif.Model Require Import Connect.
From Verif.Spec Require Import Connect.
Local Open Scope list_scope.
Local Open Scope string_scope.

Lemma prefix_spec p s : String.prefix p s = true <-> exists r, s = append p r.
Proof.
  revert s. induction p as [|c p IH]; intros s; [destruct s; cbn; (split; [intros _; eexists; reflexivity|reflexivity])|]. destruct s as [|x s]; cbn; [split; [discriminate|intros [r E]; discriminate]|].
  destruct (ascii_dec c x) as [->|N]; [|split; [discriminate|intros [r E]; injection E as E _; congruence]]. rewrite IH. split; intros [r E]; exists r; [rewrite E; reflexivity|injection E as E; exact E].
Qed.
Lemma run_snoc l h e : run l (h ++ [e]) = step (run l h) e.
Proof. unfold run. rewrite fold_left_app. reflexivity. Qed.
Lemma in_eqb x l : existsb (String.eqb x) l = true <-> In x l.
Proof. rewrite existsb_exists. split; [intros (y & I & E); apply String.eqb_eq in E; subst; exact I|]. intros I. exists x. split; [exact I|apply String.eqb_refl]. Qed.

(* Who listens and runs, given the wrapper *)
Definition fits (s : state) : Prop :=
  (forall q, In q (queues s) -> (fst q < next s)%nat) /\ (forall n k, wrapper s = Some (n, k) -> (n < next s)%nat) /\
  match wrapper s with
  | None => listeners s = [] /\ running s = [] /\ current s = None
  | Some (n, Port p) => listeners s = [(n, p)] /\ running s = [] /\ current s = Some p
  | Some (n, Simulated id) => listeners s = [] /\ running s = (if lively id then [(n, id)] else []) /\ current s = None
  end.
Lemma detached s : fits s -> set_current (set_wrapper s None) None =
  {| wrapper := None; listeners := []; queues := queues s; running := []; tab := tab s; current := None; ports := ports s; heard := heard s; next := next s |}.
Proof.
  intros (_ & _ & F). destruct s as [w ls qs rs t c ps hs n]. unfold set_wrapper, set_current. cbn in *. destruct w as [[k [id|p]]|]; destruct F as (-> & -> & _); cbn.
  - destruct (lively id); cbn; rewrite ?Nat.eqb_refl; reflexivity.
  - rewrite Nat.eqb_refl. reflexivity.
  - reflexivity.
Qed.
Lemma fits_step s e : fits s -> fits (step s e).
Proof.
  intros F. destruct e as [x|p d| |l]; cbn [step].
  - pose proof (detached s F) as D. destruct F as (Q & W & _). unfold connect. rewrite D. clear D. destruct (String.prefix "virtual" x).
    + destruct (known _); cbn [fst].
      * unfold fits, show, start, set_wrapper. cbn. split; [intros q I; specialize (Q q I); lia|]. split; [intros n k H; injection H as <- _; lia|]. split; [reflexivity|]. split; [reflexivity|reflexivity].
      * unfold fits. cbn. split; [exact Q|]. split; [discriminate|auto].
    + cbn. destruct (existsb _ (ports s)); cbn.
      * unfold fits. cbn. split; [intros q I; specialize (Q q I); lia|]. split; [intros n k H; injection H as <- _; lia|auto].
      * unfold fits. cbn. split; [exact Q|]. split; [discriminate|auto].
  - unfold receive. destruct (existsb _ (heard s)); [|exact F]. destruct F as (Q & W & F). unfold fits. cbn. split; [|split; [exact W|exact F]]. intros q I. apply in_app_iff in I. destruct I as [I|I]; [exact (Q q I)|].
    destruct (wrapper s) as [[n [id|p']]|]; destruct F as (L & _); rewrite L in I; cbn in I; try contradiction. destruct (String.eqb p p'); [|destruct I]. destruct I as [<-|[]]. exact (W n _ eq_refl).
  - unfold read. destruct (wrapper s) as [[n k]|] eqn:E; [|exact F]. destruct F as (Q & W & F). unfold fits. cbn. rewrite E in *. split; [|split; [exact W|exact F]]. intros q I. apply filter_In in I. apply Q. apply I.
  - exact F.
Qed.
Lemma fits_run l h : fits (run l h).
Proof. induction h as [|e h IH] using rev_ind; [unfold fits; cbn; split; [intros q []|split; [discriminate|auto]]|]. rewrite run_snoc. apply fits_step. exact IH. Qed.

(* Whatever was chosen before, only the connected client listens to a port or is simulated. *)
Theorem C119_one : forall l h, let s := run l h in
  match connected s with
  | None => listeners s = [] /\ running s = []
  | Some (Port p) => map snd (listeners s) = [p] /\ running s = []
  | Some (Simulated id) => listeners s = [] /\ (map snd (running s) = [id] \/ (running s = [] /\ id <> "kemper"))
  end.
Proof.
  intros l h s. destruct (fits_run l h) as (_ & _ & F). subst s. unfold connected. destruct (wrapper (run l h)) as [[n [id|p]]|]; cbn; destruct F as (-> & -> & _); [|auto|auto].
  split; [reflexivity|]. unfold lively. destruct (String.eqb_spec id "kemper"); [left; reflexivity|right; auto].
Qed.
Print Assumptions C119_one.

Lemma ports_step s e : fits s -> ports (step s e) = match e with Plug l => l | _ => ports s end /\ heard (step s e) = heard s.
Proof.
  intros F. destruct e as [x|p d| |l']; cbn [step].
  - unfold connect. rewrite (detached _ F). destruct (String.prefix "virtual" x); [destruct (known _); split; reflexivity|]. cbn. destruct (existsb _ _); split; reflexivity.
  - unfold receive. destruct (existsb _ _); split; reflexivity.
  - unfold read. destruct (wrapper s) as [[n k]|]; split; reflexivity.
  - split; reflexivity.
Qed.
Lemma ports_run l h : ports (run l h) = plugged l h /\ heard (run l h) = l.
Proof.
  induction h as [|e h [IH1 IH2]] using rev_ind; [split; reflexivity|]. rewrite run_snoc. destruct (ports_step _ e (fits_run l h)) as [-> ->]. unfold plugged in *. rewrite fold_left_app. cbn [fold_left]. rewrite <- IH1. auto.
Qed.
Lemma keep w : Forall no_connect w -> forall s, wrapper (fold_left step w s) = wrapper s /\ tab (fold_left step w s) = tab s.
Proof.
  intros F. induction F as [|e w E F IH]; intros s; [split; reflexivity|]. cbn [fold_left]. destruct (IH (step s e)) as [-> ->]. destruct e as [x|p d| |l]; [destruct E| | |]; cbn [step].
  - unfold receive. destruct (existsb _ _); split; reflexivity.
  - unfold read. destruct (wrapper s) as [[n k]|] eqn:W; cbn; rewrite ?W; split; reflexivity.
  - split; reflexivity.
Qed.
Lemma virtual_id id : In id ["kemper"; "boomerang"; "local"] -> String.prefix "virtual" ("virtual-" ++ id) = true /\ String.substring 8 (String.length ("virtual-" ++ id) - 8) ("virtual-" ++ id) = id /\ known id = true.
Proof. intros [<-|[<-|[<-|[]]]]; vm_compute; auto. Qed.
Lemma no_virtual p : ~ (exists r, p = "virtual" ++ r) -> String.prefix "virtual" p = false.
Proof. intros N. destruct (String.prefix "virtual" p) eqn:E; [|reflexivity]. exfalso. apply N. apply prefix_spec. exact E. Qed.

(* The emulator is connected to the client chosen last, until the next choice. *)
Theorem C119_chosen_partial : forall l h x k w, means (plugged l h) x k -> Forall no_connect w -> connected (run l (h ++ Connect x :: w)) = k.
Proof.
  intros l h x k w M F. unfold run. rewrite fold_left_app. cbn [fold_left]. fold (run l h). unfold connected. destruct (keep w F (step (run l h) (Connect x))) as [-> _]. cbn [step]. unfold connect.
  rewrite (detached _ (fits_run l h)). destruct (ports_run l h) as [P _]. destruct M as [id I|p V I|p V I].
  - destruct (virtual_id id I) as (A & B & C). rewrite A, B, C. reflexivity.
  - rewrite (no_virtual p V). cbn. rewrite P. apply in_eqb in I. rewrite I. reflexivity.
  - rewrite (no_virtual p V). cbn. rewrite P. destruct (existsb (String.eqb p) (plugged l h)) eqn:E; [apply in_eqb in E; contradiction|]. reflexivity.
Qed.
Print Assumptions C119_chosen_partial.

(* A port which is there from the start: exactly its messages arrive, each once, in order, none from before the choice and none from other ports. *)
Theorem C119_received_partial : forall l h p w, means (plugged l h) p (Some (Port p)) -> In p l -> Forall no_connect w -> waiting (run l (h ++ Connect p :: w)) = arrived p w.
Proof.
  intros l h p w M I F. inversion M as [id X E1 E2|q V J E1 E2|]; subst.
  unfold run. rewrite fold_left_app. cbn [fold_left]. fold (run l h). destruct (fits_run l h) as (Q & _ & _). destruct (ports_run l h) as [P H].
  set (n := next (run l h)) in *. set (s0 := step (run l h) (Connect p)).
  assert (G : wrapper s0 = Some (n, Port p) /\ listeners s0 = [(n, p)] /\ heard s0 = l /\ waiting s0 = []).
  { subst s0. cbn [step]. unfold connect. rewrite (detached _ (fits_run l h)). rewrite (no_virtual p V). cbn. rewrite P. apply in_eqb in J. rewrite J. cbn. split; [reflexivity|]. split; [reflexivity|]. split; [exact H|].
    unfold waiting. cbn. replace (filter _ _) with (@nil (nat * list Z)); [reflexivity|]. symmetry. clear - Q. induction (queues (run l h)) as [|q r IH]; [reflexivity|]. cbn.
    specialize (Q q (or_introl eq_refl)) as A. destruct (Nat.eqb_spec (fst q) (next (run l h))); [subst n; lia|]. apply IH. intros y Y. apply Q. right. exact Y. }
  clearbody s0. clear Q P H M J. unfold arrived.
  assert (K : forall w s acc, Forall no_connect w -> wrapper s = Some (n, Port p) -> listeners s = [(n, p)] -> heard s = l -> waiting s = acc ->
    waiting (fold_left step w s) = fold_left (fun l e => match e with Receive q d => if String.eqb q p then l ++ [d] else l | Read => [] | _ => l end)%list w acc).
  { clear w F G s0. induction w as [|e w IH]; intros s acc F W L H A; [exact A|]. cbn [fold_left]. inversion F as [|? ? N F']; subst e0 || idtac; subst.
    apply IH; [assumption| | | |]; destruct e as [x|q d| |l']; cbn [step]; try contradiction; unfold receive, read; rewrite ?W.
    all: try (destruct (existsb _ _); cbn; solve [assumption|reflexivity]). all: try (cbn; solve [assumption|reflexivity]).
    - destruct (existsb (String.eqb q) (heard s)) eqn:E.
      + unfold waiting. cbn. rewrite ?W, ?L. cbn. destruct (String.eqb_spec q p) as [->|D]; cbn; [|rewrite ?List.app_nil_r; reflexivity].
        rewrite filter_app, map_app. cbn. rewrite Nat.eqb_refl. reflexivity.
      + destruct (String.eqb_spec q p) as [->|D]; [apply in_eqb in I; congruence|reflexivity].
    - unfold waiting. cbn. rewrite ?W. replace (filter _ (filter _ _)) with (@nil (nat * list Z)); [reflexivity|]. symmetry. clear. induction (queues s) as [|y r IH]; [reflexivity|]. cbn. destruct (Nat.eqb (fst y) n) eqn:E; cbn; rewrite ?E; exact IH.
    - unfold waiting. cbn. rewrite ?W. reflexivity. }
  destruct G as (G1 & G2 & G3 & G4). exact (K w s0 [] F G1 G2 G3 G4).
Qed.
Print Assumptions C119_received_partial.

(* The tab shows the virtual Kemper exactly while it is connected. *)
Theorem C119_tab_partial : forall l h, Forall sensible h -> tab (run l h) = match wrapper (run l h) with Some (n, Simulated id) => if String.eqb id "kemper" then Some (n, id) else None | _ => None end.
Proof.
  intros l h. induction h as [|e h IH] using rev_ind; intros F; [reflexivity|]. apply Forall_app in F. destruct F as [F E]. inversion E as [|? ? E1 _]; subst. specialize (IH F). rewrite run_snoc.
  destruct e as [x|p d| |l']; cbn [step]; cbn [sensible] in E1.
  - unfold connect. rewrite (detached _ (fits_run l h)). destruct (String.prefix "virtual" x) eqn:V.
    + apply prefix_spec in V. destruct V as [r R]. destruct (E1 r R) as (id & I & ->). destruct (virtual_id id I) as (_ & B & C). rewrite B, C. cbn. unfold lively. reflexivity.
    + cbn. destruct (existsb _ _); reflexivity.
  - unfold receive. destruct (existsb _ _); exact IH.
  - unfold read. destruct (wrapper (run l h)) as [[n k]|] eqn:W; cbn; rewrite ?W in *; exact IH.
  - exact IH.
Qed.
Print Assumptions C119_tab_partial.

(* "Every port can be chosen" is false: a port with a name beginning with virtual fails, or is taken for a simulation; and the tab of the old client remains. *)
Theorem C119_virtual_refuted :
  (exists l h x, In x (plugged l h) /\ snd (connect (run l h) x) = false /\ connected (run l (h ++ [Connect x])) = None /\ tab (run l (h ++ [Connect x])) <> None) /\
  (exists l x, In x l /\ connected (run l [Connect x]) = Some (Simulated "kemper") /\ x <> "virtual-kemper").
Proof.
  split.
  - exists ["virtual midi"], [Connect "virtual-kemper"], "virtual midi". split; [left; reflexivity|]. split; [vm_compute; reflexivity|]. split; [vm_compute; reflexivity|]. vm_compute. discriminate.
  - exists ["virtual kemper"], "virtual kemper". split; [left; reflexivity|]. split; [vm_compute; reflexivity|discriminate].
Qed.
Print Assumptions C119_virtual_refuted.
(* "The connected client is heard" is false: nothing arrives from a device which was switched on after the start of the web application, although it is connected. *)
Theorem C119_late_refuted : forall l p d, ~ In p l -> ~ (exists r, p = "virtual" ++ r) ->
  let s := run l [Plug (p :: l); Connect p; Receive p d] in connected s = Some (Port p) /\ current s = Some p /\ waiting s = [].
Proof.
  intros l p d N V s. assert (E : existsb (String.eqb p) l = false) by (destruct (existsb (String.eqb p) l) eqn:E; [apply in_eqb in E; contradiction|reflexivity]).
  subst s. unfold run. cbn [fold_left step]. unfold connect. cbn -[String.prefix]. rewrite (no_virtual p V). cbn -[String.prefix]. rewrite String.eqb_refl. cbn. unfold receive. cbn. rewrite E. split; [reflexivity|]. split; reflexivity.
Qed.
Print Assumptions C119_late_refuted.

Example ex_connect : let h := [Connect "virtual-kemper"; Connect "Profiler"; Receive "Profiler" [1]; Receive "Other" [2]; Receive "Profiler" [3]] in
  waiting (run ["Profiler"; "Other"] h) = [[1]; [3]]%Z /\ means ["Profiler"; "Other"] "Profiler" (Some (Port "Profiler")) /\
  waiting (run ["Profiler"; "Other"] (h ++ [Connect "Other"; Receive "Other" [4]; Receive "Profiler" [5]])) = [[4]]%Z /\
  connected (run ["Profiler"] [Connect "Profiler"; Connect "Not connected"]) = None /\ Forall sensible [Connect "virtual-kemper"].
Proof.
  split; [vm_compute; reflexivity|]. split; [apply MPort; [intros [r E]; discriminate|left; reflexivity]|]. split; [vm_compute; reflexivity|]. split; [vm_compute; reflexivity|].
  constructor; [|constructor]. intros r _. exists "kemper". split; [left; reflexivity|reflexivity].
Qed.
