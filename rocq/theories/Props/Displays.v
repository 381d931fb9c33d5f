(* C92: the display editor of the web application. *)
From Coq Require Import String QArith Qround.
From Verif.Lib Require Import Base.
From Verif.Model Require Import Displays.
From Verif.Spec Require Import Displays.
From Verif.Proofs Require Import Displays.
Open Scope string_scope.
Open Scope Z_scope.
Local Open Scope list_scope.

(* Whatever is done in the editor: elements which actions use stay, with their names *)
Theorem C92_used_kept : forall uses driver t s0 ops m a, valid t -> open uses driver t = Some s0 -> part m t -> named m a -> uses a = true ->
  exists m', part m' (s_tree (steps uses s0 ops)) /\ n_id m' = n_id m /\ named m' a.
Proof.
  intros uses d t s0 ops [u i cs] a V E P [Na Ne] U. pose proof (inv_open uses d t s0 V E) as I.
  assert (kept uses u a s0) as K.
  { unfold open in E. destruct (dots_ok t) eqn:D; [|discriminate E]. apply (f_equal (fun o => match o with Some x => x | None => s0 end)) in E. cbv beta iota in E. subst s0. unfold reset. cbn [s_tree]. rewrite D, used_ids. cbn [n_info] in Na.
    assert (In (u, setup_type i, some cs) (view (setup t))) as W by (rewrite view_setup; apply in_map_iff; exists (u, i, some cs); split; [reflexivity|apply part_view, P]).
    split; [exact U|]. split; [exact Ne|]. cbn [s_used s_tree]. split; [|exists (setup_type i), (some cs); split; [exact W|rewrite setup_assign; exact Na]]. apply used_in. exists (setup_type i), (some cs). split; [exact W|]. apply used_info_iff. exists a. rewrite setup_assign. auto. }
  destruct (good_steps uses s0 ops I) as [_ G]. destruct (G u a K) as [_ [_ [_ [j [c [W A]]]]]]. apply view_part in W. destruct W as [m' [P' [E1 [E2 _]]]]. exists m'. split; [exact P'|]. split; [exact E1|]. split; [|exact Ne]. rewrite E2. exact A.
Qed.
Print Assumptions C92_used_kept.

(* Dragging or resizing brings an element to front: behind all of its siblings in the list, which keep their order *)
Theorem C92_front : forall uses t s m o, valid t -> reached uses t s -> part m (s_tree s) -> n_id m <> n_id (s_tree s) ->
  (can_select (i_type (n_info m)) /\ o = DragStart (n_id m) \/ has_size (i_type (n_info m)) /\ o = ResizeStart (n_id m)) ->
  let s' := step uses s o in s_sel s' = Some (n_id m) /\ exists a b, replaced (a ++ m :: b) (a ++ b ++ [m]) (s_tree s) (s_tree s').
Proof.
  intros uses t s m o V R P N O. pose proof (inv_reached uses t s V R) as I. destruct (front_replaced uses s m I P N) as [a [b X]]. destruct O as [[C ->]|[C ->]]; cbn [step]; rewrite (type_of_part uses s m I P).
  - apply can_select_editable in C. rewrite C. split; [reflexivity|]. exists a, b. exact X.
  - apply has_size_resizable in C. rewrite C. split; [reflexivity|]. exists a, b. exact X.
Qed.
Print Assumptions C92_front.

(* Moving up and down exchange the element with its neighbour, if there is one; the root has none *)
Theorem C92_move : forall uses t s m up, valid t -> reached uses t s -> part m (s_tree s) -> s_sel s = Some (n_id m) ->
  let s' := step uses s (if up : bool then MoveUp else MoveDown) in
  if Nat.eqb (n_id m) (n_id (s_tree s)) then s_tree s' = s_tree s
  else exists a b, replaced (a ++ m :: b) (if up then match b with x :: b => a ++ x :: m :: b | [] => a ++ [m] end else match rev a with x :: a => rev a ++ m :: x :: b | [] => m :: b end) (s_tree s) (s_tree s').
Proof.
  intros uses t s m up V R P S. pose proof (inv_reached uses t s V R) as I. cbn zeta. destruct (Nat.eqb_spec (n_id m) (n_id (s_tree s))) as [E|E]; destruct up; cbn [step]; unfold selected; rewrite S; cbn [with_tree s_tree].
  - rewrite E. apply siblings_root, (inv_nodup uses s I).
  - rewrite E. apply siblings_root, (inv_nodup uses s I).
  - apply (up_replaced uses s m I P E).
  - apply (down_replaced uses s m I P E).
Qed.
Print Assumptions C92_move.

(* Removing an element which no action uses removes just that; a selected element never has others in it *)
Theorem C92_remove : forall uses t s m, valid t -> reached uses t s -> part m (s_tree s) -> s_sel s = Some (n_id m) -> n_id m <> n_id (s_tree s) -> (forall a, named m a -> uses a = false) ->
  let s' := step uses s Remove in s_sel s' = None /\ children m = [] /\ exists a b, replaced (a ++ m :: b) (a ++ b) (s_tree s) (s_tree s').
Proof.
  intros uses t s [u0 j0 cs0] V R P S N U. pose proof (inv_reached uses t s V R) as I. destruct (sel_leaf uses s _ I S) as [i [P' B]]. pose proof (part_unique _ _ _ (inv_nodup uses s I) P P' eq_refl) as Q0. injection Q0 as -> ->. cbn [n_id] in *. cbn [step]. unfold selected. rewrite S. unfold is_root.
  destruct (Nat.eqb_spec (n_id (s_tree s)) u0) as [E|E]; [congruence|]. destruct (in_used u0 s) eqn:F.
  { exfalso. apply in_used_iff in F. destruct (i_used uses s I _ F) as [j [c [W A]]]. apply view_part in W. destruct W as [m' [P2 [E1 [E2 _]]]]. cbn [r_id r_info fst snd] in E1, E2.
    rewrite (part_unique _ _ _ (inv_nodup uses s I) P2 P' E1) in E2. cbn [n_info] in E2. subst j. apply used_info_iff in A. destruct A as [a [A1 [A2 A3]]]. rewrite (U a) in A3; [discriminate A3|]. split; [exact A1|exact A2]. }
  destruct (drop_replaced uses s _ I P' N) as [a [b X]]. cbn [n_id] in X.
  pose proof (inv_removed uses s _ I P' N) as [_ Q]. cbn [n_id] in Q. rewrite reset_eq.
  - cbn [s_sel s_tree with_tree]. split; [reflexivity|]. split; [reflexivity|]. exists a, b. exact X.
  - intros r Hr. apply (i_lab uses s I r (Q r Hr)).
  - intros r Hr. apply (i_dots uses s I r (Q r Hr)).
Qed.
Print Assumptions C92_remove.

(* A new element is put on top and selected. Its name is new *)
Theorem C92_create : forall uses t s id i l, valid t -> reached uses t s -> s_tree s = N id i (Some l) ->
  exists a j, s_tree (step uses s Create) = N id i (Some (l ++ [N (s_next s) j None])) /\ s_sel (step uses s Create) = Some (s_next s) /\ ~ In (s_next s) (ids (s_tree s)) /\
    i_type j = "DisplayLabel" /\ i_assign j = Some a /\ at_ j 0 0 100 30 /\ (forall m, part m (s_tree s) -> ~ named m a) /\ a <> "".
Proof.
  intros uses t s id i l V R E. pose proof (inv_reached uses t s V R) as I. pose proof (next_label_fresh (s_tree s)) as F. set (a := next_label (length (flatten (s_tree s))) 1 (s_tree s)) in *.
  assert (a <> "") as Na by (subst a; clear; generalize (length (flatten (s_tree s))) 1%nat; intros fuel; induction fuel as [|fuel IH]; intros k; cbn [next_label]; [discriminate|]; destruct (has_name (label k) (s_tree s)); [apply IH|discriminate]).
  assert (step uses s Create = with_sel (reset uses {| s_driver := s_driver s; s_tree := N id i (Some (l ++ [new_element (s_next s) a])); s_sel := s_sel s; s_used := s_used s; s_next := S (s_next s) |}) (Some (s_next s))) as St by (cbn [step]; subst a; destruct (s_tree s); injection E as -> -> ->; reflexivity).
  destruct (good_create uses s id i l I E a) as [T _]. rewrite St. cbn zeta in T. unfold with_sel at 1. cbn [s_tree s_sel]. rewrite T. unfold new_element.
  exists a. eexists. split; [reflexivity|]. split; [reflexivity|]. split.
  { intros W. rewrite ids_view in W. apply in_map_iff in W. destruct W as [r [W Hr]]. pose proof (i_next uses s I r Hr). lia. }
  split; [reflexivity|]. split; [reflexivity|]. split; [eexists; split; [reflexivity|]; repeat split|]. split; [|exact Na].
  intros m P [A _]. assert (has_name a (s_tree s) = true) as W; [|congruence]. unfold has_name. apply existsb_exists. exists m. split; [apply in_flatten, P|]. rewrite A. apply String.eqb_refl.
Qed.
Print Assumptions C92_create.

(* Moving an element with the mouse: by the distance (rounded), and nothing else changes. The same for its size *)
Theorem C92_drag : forall uses t s u i dx dy x y w h, valid t -> reached uses t s -> part (N u i None) (s_tree s) -> can_select (i_type i) -> at_ i x y w h ->
  exists i' x' y', exchanged (N u i None) (N u i' None) (s_tree s) (s_tree (step uses s (DragMove u dx dy))) /\ same_but_bounds i i' /\ at_ i' x' y' (Z.max 1 w) (Z.max 1 h) /\ nearest (inject_Z x + dx) x' /\ nearest (inject_Z y + dy) y'.
Proof.
  intros uses t s u i dx dy x y w h V R P C A. pose proof (inv_reached uses t s V R) as I. apply can_select_editable in C. cbn [step]. pose proof (type_of_part uses s _ I P) as T. cbn [n_id n_info] in T. rewrite T, C. cbn [with_tree s_tree].
  exists (with_bounds (moved dx dy) i), (round (inject_Z x + dx)), (round (inject_Z y + dy)). split; [apply (change_leaf uses _ s u i I P)|]. split; [apply same_with|]. split; [|split; apply nearest_round].
  apply (at_with _ _ _ _ _ _ A). intros b X Y W H. unfold moved. cbn [set_bounds b_x b_y b_w b_h]. rewrite X, Y, W, H. cbn [plus write value]. rewrite !write_size. auto.
Qed.
Print Assumptions C92_drag.

Theorem C92_resize : forall uses t s u i qw qh x y w h, valid t -> reached uses t s -> part (N u i None) (s_tree s) -> has_size (i_type i) -> at_ i x y w h ->
  exists i' w' h', exchanged (N u i None) (N u i' None) (s_tree s) (s_tree (step uses s (ResizeMove u qw qh))) /\ same_but_bounds i i' /\ at_ i' x y w' h' /\ 1 <= w' /\ 1 <= h' /\ ((1 <= qw)%Q -> nearest qw w') /\ ((1 <= qh)%Q -> nearest qh h').
Proof.
  intros uses t s u i qw qh x y w h V R P C A. pose proof (inv_reached uses t s V R) as I. apply has_size_resizable in C. cbn [step]. pose proof (type_of_part uses s _ I P) as T. cbn [n_id n_info] in T. rewrite T, C. cbn [with_tree s_tree].
  destruct (write_pos qw) as [w' [W1 [W2 W3]]]. destruct (write_pos qh) as [h' [H1 [H2 H3]]].
  exists (with_bounds (resized qw qh) i), w', h'. split; [apply (change_leaf uses _ s u i I P)|]. split; [apply same_with|]. split; [|auto].
  apply (at_with _ _ _ _ _ _ A). intros b X Y W H. unfold resized. cbn [set_bounds b_x b_y b_w b_h]. rewrite X, Y. cbn [write value]. rewrite !round_Z, W1, H1. auto.
Qed.
Print Assumptions C92_resize.

(* The fields for the position and size of the selected element *)
Theorem C92_fields : forall uses t s u i z x y w h, valid t -> reached uses t s -> s_sel s = Some u -> part (N u i None) (s_tree s) -> can_select (i_type i) -> at_ i x y w h -> 1 <= w -> 1 <= h ->
  let ex o i' := exchanged (N u i None) (N u i' None) (s_tree s) (s_tree (step uses s o)) /\ same_but_bounds i i' in
  (exists i', ex (SetX (inject_Z z)) i' /\ at_ i' z y w h) /\ (exists i', ex (SetY (inject_Z z)) i' /\ at_ i' x z w h) /\
  (has_size (i_type i) -> (exists i', ex (SetW (inject_Z z)) i' /\ at_ i' x y (Z.max 1 z) h) /\ (exists i', ex (SetH (inject_Z z)) i' /\ at_ i' x y w (Z.max 1 z))).
Proof.
  intros uses t s u i z x y w h V R S P C A Lw Lh ex. pose proof (inv_reached uses t s V R) as I. apply can_select_editable in C. pose proof (type_of_part uses s _ I P) as T. cbn [n_id n_info] in T.
  assert (forall f, exchanged (N u i None) (N u (with_bounds f i) None) (s_tree s) (change_info u (with_bounds f) (s_tree s)) /\ same_but_bounds i (with_bounds f i)) as X by (intros f; split; [apply (change_leaf uses _ s u i I P)|apply same_with]).
  assert (Z.max 1 w = w /\ Z.max 1 h = h) as [Mw Mh] by lia.
  unfold ex. cbn [step]. unfold selected. rewrite S, T, C. cbn [with_tree s_tree]. split; [|split].
  - eexists. split; [apply X|]. apply (at_with _ _ _ _ _ _ A). intros b Bx By Bw Bh. unfold with_x. cbn [set_bounds b_x b_y b_w b_h]. rewrite By, Bw, Bh, !write_size. cbn [write value]. rewrite !round_Z, Mw, Mh. auto.
  - eexists. split; [apply X|]. apply (at_with _ _ _ _ _ _ A). intros b Bx By Bw Bh. unfold with_y. cbn [set_bounds b_x b_y b_w b_h]. rewrite Bx, Bw, Bh, !write_size. cbn [write value]. rewrite !round_Z, Mw, Mh. auto.
  - intros Z. apply has_size_resizable in Z. rewrite Z. cbn [s_tree]. split.
    + eexists. split; [apply X|]. apply (at_with _ _ _ _ _ _ A). intros b Bx By Bw Bh. unfold with_w. cbn [set_bounds b_x b_y b_w b_h]. rewrite Bx, By, Bh, !write_size. cbn [write value]. rewrite !round_Z, Mh. auto.
    + eexists. split; [apply X|]. apply (at_with _ _ _ _ _ _ A). intros b Bx By Bw Bh. unfold with_h. cbn [set_bounds b_x b_y b_w b_h]. rewrite Bx, By, Bw, !write_size. cbn [write value]. rewrite !round_Z, Mw. auto.
Qed.
Print Assumptions C92_fields.

(* The name: what the user entered, without characters Python does not allow and without underscores at the beginning. Names of elements which are used cannot be changed *)
Theorem C92_name : forall uses t s u i a, valid t -> reached uses t s -> s_sel s = Some u -> part (N u i None) (s_tree s) ->
  exists i', exchanged (N u i None) (N u i' None) (s_tree s) (s_tree (step uses s (SetAssign a))) /\ i_type i' = i_type i /\ i_bounds i' = i_bounds i /\ i_args i' = i_args i /\
    (i_assign i' = i_assign i \/ exists b, i_assign i' = Some b /\ all_chars (fun c => letter c || digit c) b = true /\ (identifier a = true -> letter_first a = true -> b = a)).
Proof.
  intros uses t s u i a V R S P. pose proof (inv_reached uses t s V R) as I. cbn [step]. unfold selected. rewrite S. destruct (in_used u s).
  - exists i. split; [|auto]. pose proof (change_leaf uses (fun j => j) s u i I P) as X. replace (change_info u (fun j => j) (s_tree s)) with (s_tree s) in X; [exact X|]. clear. unfold change_info. symmetry. induction (s_tree s) as [id j|id j l IH] using node_ind'; cbn [change]; [destruct (Nat.eqb id u); reflexivity|]. destruct (Nat.eqb id u); [reflexivity|]. cbn [option_map]. do 2 f_equal. rewrite <- (map_id l) at 2. apply map_ext_in. intros x Hx. rewrite Forall_forall in IH. apply (IH x Hx).
  - exists (set_assign a i). split; [apply (change_leaf uses (set_assign a) s u i I P)|]. split; [reflexivity|]. split; [reflexivity|]. split; [reflexivity|]. right. exists (clean a). split; [reflexivity|]. split; [apply clean_chars|apply clean_same].
Qed.
Print Assumptions C92_name.

(* Other parameters *)
Theorem C92_parameter : forall uses t s u i k v def, valid t -> reached uses t s -> s_sel s = Some u -> part (N u i None) (s_tree s) ->
  exists i', exchanged (N u i None) (N u i' None) (s_tree s) (s_tree (step uses s (SetArg k v def))) /\ i_type i' = i_type i /\ i_bounds i' = i_bounds i /\ i_assign i' = i_assign i /\
    argument k (i_args i') = (if match def with Some d => String.eqb v d | None => false end then None else Some v) /\ (forall k', k' <> k -> argument k' (i_args i') = argument k' (i_args i)).
Proof.
  intros uses t s u i k v def V R S P. pose proof (inv_reached uses t s V R) as I. cbn [step]. unfold selected. rewrite S. exists (set_parameter k v def i). split; [apply (change_leaf uses (set_parameter k v def) s u i I P)|]. split; [reflexivity|]. split; [reflexivity|]. split; [reflexivity|].
  cbn [set_parameter i_args]. destruct (match def with Some d => String.eqb v d | None => false end).
  - split; [apply argument_removed|apply argument_removed_other].
  - split; [apply argument_put|apply argument_put_other].
Qed.
Print Assumptions C92_parameter.

(* A new class keeps the name, and the bounds but for dots; the other arguments are those a new element of the class has *)
Theorem C92_type : forall uses t s u i c, valid t -> reached uses t s -> s_sel s = Some u -> part (N u i None) (s_tree s) -> i_type i <> c ->
  exists i', exchanged (N u i None) (N u i' None) (s_tree s) (s_tree (step uses s (SetType c))) /\ i_type i' = c /\ i_assign i' = i_assign i /\
    (c <> "BidirectionalProtocolState" -> i_bounds i' = i_bounds i) /\ map fst (i_args i') = (if string_dec c "DisplayLabel" then ["layout"] else []).
Proof.
  intros uses t s u i c V R S P N. pose proof (inv_reached uses t s V R) as I. cbn [step]. unfold selected. rewrite S. destruct (sel_leaf uses s u I S) as [j [P' B]]. pose proof (part_unique _ _ _ (inv_nodup uses s I) P P' eq_refl) as Q. injection Q as <-.
  destruct (change_type uses c s u i I P B) as [i' [X [T [A [_ [_ [_ H]]]]]]]. destruct (H N) as [H1 H2]. exists i'. split; [exact X|]. split; [exact T|]. split; [exact A|]. split.
  - intros D. apply H2. unfold is_dot. apply String.eqb_neq, D.
  - rewrite H1. unfold default_args. destruct (string_dec c "DisplayLabel") as [->|W]; [reflexivity|]. apply String.eqb_neq in W. rewrite W. reflexivity.
Qed.
Print Assumptions C92_type.

(* Selecting elements, resizing the window and changing the display driver do not change the elements *)
Theorem C92_nothing : forall uses t s o, valid t -> reached uses t s -> match o with Select _ | SetDriver _ | Resize => True | _ => False end -> s_tree (step uses s o) = s_tree s.
Proof.
  intros uses t s o V R O. pose proof (inv_reached uses t s V R) as [I1 I2 I3 I4 I5 I6]. destruct o as [[u|]|u|u dx dy|u|u w h|q|q|q|q| | |a|c|k v def| | |d|]; try destruct O; cbn [step].
  - destruct (editable (type_of s u)); reflexivity.
  - reflexivity.
  - rewrite reset_eq by assumption. reflexivity.
  - rewrite reset_eq by assumption. reflexivity.
Qed.
Print Assumptions C92_nothing.

(* Opening the editor changes nothing, so that applying right away keeps display.py. Partial: dots must have the size they get, see C92_open_refuted *)
Theorem C92_open_partial : forall uses driver t, valid t -> (forall id i cs b, part (N id i cs) t -> i_type i = "BidirectionalProtocolState" -> i_bounds i = Some b -> value (b_w b) = Some 8 /\ value (b_h b) = Some 8) ->
  exists s, open uses driver t = Some s /\ s_tree s = t /\ s_driver s = driver /\ asks t s = false /\ (errors t = false -> apply s = Some (driver, t)).
Proof.
  intros uses d t V D. assert (forall r, In r (view t) -> fixed (r_info r)) as F.
  { intros r Hr W b B. apply view_part in Hr. destruct Hr as [[id i cs] [P [E1 [E2 _]]]]. cbn [n_info] in E2. subst i. apply String.eqb_eq in W. destruct (D _ _ _ b P W B) as [X Y]. unfold is8. rewrite X, Y. reflexivity. }
  assert (dots_ok t = true) as O.
  { rewrite dots_ok_view. apply forallb_forall. intros r Hr. destruct (is_dot (i_type (r_info r))) eqn:W; [|reflexivity]. apply view_part in Hr. destruct Hr as [[id i cs] [P [E1 [E2 _]]]]. cbn [n_info] in E2. subst i. destruct V as [_ V]. destruct (V _ _ _ P) as [B _]; [apply can_select_editable, dot_editable, W|]. destruct (i_bounds (r_info r)); [reflexivity|congruence]. }
  unfold open. rewrite O. unfold reset. cbn [s_tree s_driver]. rewrite O, (setup_same t F). eexists. split; [reflexivity|]. cbn [s_tree s_driver]. split; [reflexivity|]. split; [reflexivity|]. split.
  - unfold asks. cbn [s_tree]. rewrite alike_same; [reflexivity|]. clear. induction t as [id i|id i l IH] using node_ind'; [constructor|]. constructor. induction IH; constructor; auto.
  - intros E. unfold apply. cbn [s_tree s_driver]. rewrite E. reflexivity.
Qed.
Print Assumptions C92_open_partial.

Lemma Qfloor_comp' a b : (a == b)%Q -> Qfloor a = Qfloor b.
Proof. intros E. apply Z.le_antisymm; apply Qfloor_resp_le; rewrite E; apply Qle_refl. Qed.

(* Opening the editor changes dots only: a dot of another size gets 8 x 8 pixels in the top right corner of its place. *)
Theorem C92_dot : forall uses driver t s id i cs, open uses driver t = Some s -> part (N id i cs) t ->
  (i_type i <> "BidirectionalProtocolState" -> exists cs', part (N id i cs') (s_tree s)) /\
  (i_type i = "BidirectionalProtocolState" -> forall x y w h, at_ i x y w h -> ~ (w = 8 /\ h = 8) ->
    exists i' cs', part (N id i' cs') (s_tree s) /\ same_but_bounds i i' /\ at_ i' (x + w - 8) y 8 8).
Proof.
  intros uses d t s id i cs O P. assert (s_tree s = setup t) as T.
  { unfold open in O. destruct (dots_ok t) eqn:D; [|discriminate]. injection O as <-. unfold reset. cbn [s_tree]. rewrite D. reflexivity. }
  rewrite T. assert (part (setup (N id i cs)) (setup t)) as PS.
  { clear - P. induction P as [|id' j l x I P IH]; [apply part_here|]. change (setup (N id' j (Some l))) with (N id' (setup_type j) (Some (map setup l))). apply (part_in _ _ _ _ (setup x)); [apply in_map, I|exact IH]. }
  change (setup (N id i cs)) with (N id (setup_type i) (option_map (map setup) cs)) in PS. split.
  - intros K. unfold setup_type in PS. destruct (is_dot (i_type i)) eqn:D; [apply String.eqb_eq in D; contradiction|]. eauto.
  - intros K x y w h (b & B & X & Y & W & H) N. exists (setup_type i), (option_map (map setup) cs). split; [exact PS|]. unfold setup_type. rewrite K. change (is_dot "BidirectionalProtocolState") with true. cbn iota. rewrite B.
    split; [repeat split|]. unfold dot, is8. rewrite W, H. destruct ((w =? 8) && (h =? 8)) eqn:E; [exfalso; apply N; lia|].
    eexists. split; [reflexivity|]. cbn [set_b i_bounds set_bounds b_x b_y b_w b_h]. unfold num. rewrite X, Y, W. cbn [option_map plus write value]. split; [|split; [|split; reflexivity]].
    + f_equal. rewrite <- (round_Z (x + w - 8)). unfold round. apply Qfloor_comp'. apply Qplus_comp; [|reflexivity]. unfold Qeq, Qplus, inject_Z. cbn [Qnum Qden]. lia.
    + rewrite round_Z. reflexivity.
Qed.
Print Assumptions C92_dot.

(* Apply saves what is shown, with distinct names. Partial: for elements directly in the root, see C92_deep_refuted *)
Theorem C92_apply_partial : forall s d t, apply s = Some (d, t) -> t = s_tree s /\ d = s_driver s /\ (flat t -> distinct_names t /\ forall m, part m t -> ~ named m "Splashes").
Proof.
  intros s d t H. unfold apply in H. destruct (errors (s_tree s)) eqn:E; [discriminate H|]. injection H as <- <-. split; [reflexivity|]. split; [reflexivity|]. intros Fl. unfold errors in E.
  assert (forall m, part m (s_tree s) -> has_error (s_tree s) m = false) as Q.
  { intros m P. destruct (has_error (s_tree s) m) eqn:W; [|reflexivity]. assert (existsb (has_error (s_tree s)) (s_tree s :: children (s_tree s)) = true); [|congruence]. apply existsb_exists. exists m. split; [|exact W].
    clear - P Fl. revert P Fl. generalize (s_tree s). intros t P Fl. inversion P as [|id i l x Hx P']; subst; [left; reflexivity|]. right. cbn [children]. pose proof (Fl x Hx) as C. inversion P' as [|? ? l' y Hy _]; subst; [exact Hx|]. cbn [children] in C. subst l'. destruct Hy. }
  split.
  - intros m m' a P P' [A Na] [A' _]. specialize (Q m P). unfold has_error in Q. rewrite A in Q. apply orb_false_iff in Q. destruct Q as [_ Q]. apply String.eqb_neq in Na. rewrite Na in Q. cbn [negb andb] in Q. destruct (Nat.eq_dec (n_id m) (n_id m')) as [|W]; [assumption|]. exfalso.
    assert (existsb (fun x => negb (Nat.eqb (n_id x) (n_id m)) && match i_assign (n_info x) with Some b => String.eqb b a | None => false end) (flatten (s_tree s)) = true); [|congruence]. apply existsb_exists. exists m'. split; [apply in_flatten, P'|]. rewrite A', String.eqb_refl. destruct (Nat.eqb_spec (n_id m') (n_id m)); [congruence|reflexivity].
  - intros m P [A _]. specialize (Q m P). unfold has_error in Q. rewrite A in Q. discriminate Q.
Qed.
Print Assumptions C92_apply_partial.

(* Closing the editor without a question loses no change of the elements. Partial: see C92_close_refuted *)
Theorem C92_close_partial : forall t s, asks t s = false <-> alike t (s_tree s).
Proof. intros t s. unfold asks. rewrite negb_false_iff. split; [apply same_alike|apply alike_same]. Qed.
Print Assumptions C92_close_partial.

(* Opening the editor changes nothing: false, dots get another place and size *)
Definition label_at (name : string) (x y w h : Z) : info := {| i_type := "DisplayLabel"; i_assign := Some name; i_bounds := Some {| b_x := Num x; b_y := Num y; b_w := Num w; b_h := Num h |}; i_args := [("layout", "_LAYOUT")] |}.
Definition dot_at (x y w h : dim) : info := {| i_type := "BidirectionalProtocolState"; i_assign := None; i_bounds := Some {| b_x := x; b_y := y; b_w := w; b_h := h |}; i_args := [] |}.
Definition element : info := {| i_type := "DisplayElement"; i_assign := None; i_bounds := None; i_args := [] |}.
Definition example_tree : node :=
  N 0 element (Some [N 1 (label_at "DISPLAY_A" 0 0 120 40) None; N 2 (label_at "DISPLAY_B" 120 0 120 40) None; N 3 (dot_at (Num 0) (Var "_HEIGHT" 40) (Var "_WIDTH" 240) (Num 160)) None]).
Lemma example_valid : valid example_tree.
Proof. apply valid_by; [repeat constructor; cbn; intuition discriminate|reflexivity]. Qed.
Theorem C92_open_refuted : ~ (forall uses driver t s, valid t -> open uses driver t = Some s -> s_tree s = t).
Proof.
  intros H. destruct (open (fun _ => false) "SplashesCallback" example_tree) as [s|] eqn:E; [|discriminate E]. pose proof (H _ _ _ _ example_valid E) as W. vm_compute in E. injection E as <-. discriminate W.
Qed.
Print Assumptions C92_open_refuted.

(* Moving an element horizontally does not change its vertical position: false if it is an expression, which becomes NaN *)
Definition code_tree : node := N 0 element (Some [N 1 {| i_type := "DisplayLabel"; i_assign := Some "DISPLAY_A"; i_bounds := Some {| b_x := Num 0; b_y := Code "_HEIGHT - 40" None; b_w := Num 120; b_h := Num 40 |}; i_args := [] |} None]).
Theorem C92_drag_refuted : ~ (forall uses t s u i b dx, valid t -> reached uses t s -> part (N u i None) (s_tree s) -> can_select (i_type i) -> i_bounds i = Some b ->
  exists i' b', exchanged (N u i None) (N u i' None) (s_tree s) (s_tree (step uses s (DragMove u dx 0))) /\ i_bounds i' = Some b' /\ (b_y b' = b_y b \/ exists z, value (b_y b) = Some z /\ value (b_y b') = Some z)).
Proof.
  intros H. destruct (open (fun _ => false) "SplashesCallback" code_tree) as [s|] eqn:E; [|discriminate E].
  assert (valid code_tree) as V by (apply valid_by; [repeat constructor; cbn; intuition discriminate|reflexivity]).
  assert (s_tree s = code_tree) as T by (vm_compute in E; injection E as <-; reflexivity).
  destruct (H (fun _ => false) code_tree s 1%nat {| i_type := "DisplayLabel"; i_assign := Some "DISPLAY_A"; i_bounds := Some {| b_x := Num 0; b_y := Code "_HEIGHT - 40" None; b_w := Num 120; b_h := Num 40 |}; i_args := [] |} {| b_x := Num 0; b_y := Code "_HEIGHT - 40" None; b_w := Num 120; b_h := Num 40 |} (10 # 1) V) as [i' [b' [X [B Q]]]].
  - exists "SplashesCallback", s, []. split; [exact E|reflexivity].
  - rewrite T. apply in_flatten. cbn. tauto.
  - left. reflexivity.
  - reflexivity.
  - assert (view (s_tree (step (fun _ => false) s (DragMove 1 (10 # 1) 0))) = [(0%nat, element, true); (1%nat, {| i_type := "DisplayLabel"; i_assign := Some "DISPLAY_A"; i_bounds := Some {| b_x := Num 10; b_y := NaN; b_w := Num 120; b_h := Num 40 |}; i_args := [] |}, false)]) as W by (vm_compute in E; injection E as <-; vm_compute; reflexivity).
    apply exchanged_view in X. destruct X as [A [C [X1 X2]]]. rewrite W in X2. cbn [view some] in X2.
    assert (In (1%nat, i', false) [(0%nat, element, true); (1%nat, {| i_type := "DisplayLabel"; i_assign := Some "DISPLAY_A"; i_bounds := Some {| b_x := Num 10; b_y := NaN; b_w := Num 120; b_h := Num 40 |}; i_args := [] |}, false)]) as M by (rewrite X2; apply in_or_app; right; left; reflexivity).
    destruct M as [M|[M|[]]]; [discriminate M|]. injection M as <-. cbn [i_bounds] in B. injection B as <-. destruct Q as [Q|[z [Q _]]]; discriminate Q.
Qed.
Print Assumptions C92_drag_refuted.

(* What is applied has distinct names: false for elements within other elements *)
Definition deep_tree : node := N 0 element (Some [N 1 element (Some [N 2 (label_at "DISPLAY_A" 0 0 120 40) None; N 3 (label_at "DISPLAY_B" 120 0 120 40) None])]).
Theorem C92_deep_refuted : ~ (forall uses t s d t', valid t -> distinct_names t -> reached uses t s -> apply s = Some (d, t') -> distinct_names t').
Proof.
  intros H. assert (valid deep_tree) as V by (apply valid_by; [repeat constructor; cbn; intuition discriminate|reflexivity]).
  assert (exists s0, open (fun _ => false) "SplashesCallback" deep_tree = Some s0) as [s0 E] by (eexists; reflexivity).
  assert (distinct_names deep_tree) as D.
  { intros m m' a P P' [N _] [N' _]. apply in_flatten in P. apply in_flatten in P'. cbn in P, P'. destruct P as [<-|[<-|[<-|[<-|[]]]]], P' as [<-|[<-|[<-|[<-|[]]]]]; cbn in N, N'; try discriminate; try reflexivity; congruence. }
  destruct (apply (steps (fun _ => false) s0 [Select (Some 3%nat); SetAssign "DISPLAY_A"])) as [[d t']|] eqn:Ap; [|vm_compute in E; injection E as <-; vm_compute in Ap; discriminate Ap].
  assert (distinct_names t') as W by (apply (H (fun _ => false) deep_tree (steps (fun _ => false) s0 [Select (Some 3%nat); SetAssign "DISPLAY_A"]) d t' V D); [exists "SplashesCallback", s0, [Select (Some 3%nat); SetAssign "DISPLAY_A"]; split; [exact E|reflexivity]|exact Ap]).
  vm_compute in E. injection E as <-. vm_compute in Ap. injection Ap as <- <-. clear - W.
  match type of W with distinct_names (N _ _ (Some [N _ _ (Some [?x; ?y])])) => specialize (W x y "DISPLAY_A"); assert (n_id x = n_id y) as Q; [apply W|discriminate Q] end.
  - apply in_flatten. cbn. tauto.
  - apply in_flatten. cbn. tauto.
  - split; [reflexivity|discriminate].
  - split; [reflexivity|discriminate].
Qed.
Print Assumptions C92_deep_refuted.

(* Names which are applied are identifiers of Python: false, they may begin with a digit *)
Theorem C92_identifier_refuted : ~ (forall uses t s d t' m a, valid t -> reached uses t s -> (forall m a, part m t -> named m a -> identifier a = true) -> apply s = Some (d, t') -> part m t' -> named m a -> identifier a = true).
Proof.
  intros H. assert (exists s0, open (fun _ => false) "SplashesCallback" example_tree = Some s0) as [s0 E] by (eexists; reflexivity).
  destruct (apply (steps (fun _ => false) s0 [Select (Some 1%nat); SetAssign "1st"])) as [[d t']|] eqn:Ap; [|vm_compute in E; injection E as <-; vm_compute in Ap; discriminate Ap].
  assert (identifier "1st" = true) as W; [|discriminate W].
  apply (H (fun _ => false) example_tree (steps (fun _ => false) s0 [Select (Some 1%nat); SetAssign "1st"]) d t' (N 1 (label_at "1st" 0 0 120 40) None) "1st" example_valid).
  - exists "SplashesCallback", s0, [Select (Some 1%nat); SetAssign "1st"]. split; [exact E|reflexivity].
  - intros m a P [A _]. apply in_flatten in P. cbn in P. destruct P as [<-|[<-|[<-|[<-|[]]]]]; cbn in A; try discriminate A; injection A as <-; reflexivity.
  - exact Ap.
  - vm_compute in E. injection E as <-. vm_compute in Ap. injection Ap as <- <-. apply in_flatten. vm_compute. tauto.
  - split; [reflexivity|discriminate].
Qed.
Print Assumptions C92_identifier_refuted.

(* Closing the editor without a question loses nothing: false for the display driver *)
Theorem C92_close_refuted : ~ (forall uses t d s0 ops, valid t -> open uses d t = Some s0 -> asks t (steps uses s0 ops) = false -> s_driver (steps uses s0 ops) = d).
Proof.
  intros H. assert (exists s0, open (fun _ => false) "SplashesCallback" code_tree = Some s0) as [s0 E] by (eexists; reflexivity).
  assert (valid code_tree) as V by (apply valid_by; [repeat constructor; cbn; intuition discriminate|reflexivity]).
  pose proof (H _ _ _ _ [SetDriver "TunerDisplayCallback"] V E) as W. vm_compute in E. injection E as <-. vm_compute in W. discriminate (W eq_refl).
Qed.
Print Assumptions C92_close_refuted.

(* A session: B is moved to front by dragging it 12.5 to the right, A (which is used) cannot be removed, a label is added *)
Example ex_session :
  let uses := String.eqb "DISPLAY_A" in
  exists s0, open uses "SplashesCallback" example_tree = Some s0 /\
    let s := steps uses s0 [DragStart 2; DragMove 2 (25 # 2) (-3 # 1); Select (Some 1%nat); Remove; SetAssign "X"; Create; Select (Some 3%nat); MoveDown; SetX (7 # 1)] in
    map (fun m => (n_id m, i_assign (n_info m), i_bounds (n_info m))) (children (s_tree s)) =
      [(3%nat, None, Some {| b_x := Num 7; b_y := Num 40; b_w := Num 8; b_h := Num 8 |}); (1%nat, Some "DISPLAY_A", Some {| b_x := Num 0; b_y := Num 0; b_w := Num 120; b_h := Num 40 |});
       (2%nat, Some "DISPLAY_B", Some {| b_x := Num 133; b_y := Num (-3); b_w := Num 120; b_h := Num 40 |}); (4%nat, Some "DISPLAY_LABEL_1", Some {| b_x := Num 0; b_y := Num 0; b_w := Num 100; b_h := Num 30 |})] /\
    s_sel s = Some 3%nat /\ apply s <> None /\ asks example_tree s = true.
Proof. eexists. split; [reflexivity|]. vm_compute. repeat split. discriminate. Qed.
(* The hypotheses of the theorems about a reached state, for the same tree *)
Example ex_reached : let uses := String.eqb "DISPLAY_A" in exists s, reached uses example_tree s /\ s_sel s = Some 2%nat /\ part (N 2 (label_at "DISPLAY_B" 120 0 120 40) None) (s_tree s) /\
  can_select "DisplayLabel" /\ has_size "DisplayLabel" /\ at_ (label_at "DISPLAY_B" 120 0 120 40) 120 0 120 40 /\ (exists l, s_tree s = N 0 element (Some l)).
Proof.
  cbn zeta. assert (exists s0, open (String.eqb "DISPLAY_A") "SplashesCallback" example_tree = Some s0) as [s0 E] by (eexists; reflexivity).
  exists (steps (String.eqb "DISPLAY_A") s0 [Select (Some 2%nat)]). split; [exists "SplashesCallback", s0, [Select (Some 2%nat)]; split; [exact E|reflexivity]|]. vm_compute in E. injection E as <-.
  split; [reflexivity|]. split; [apply in_flatten; vm_compute; tauto|]. split; [left; reflexivity|]. split; [left; reflexivity|]. split; [eexists; split; [reflexivity|]; repeat split|]. eexists. vm_compute. reflexivity.
Qed.
