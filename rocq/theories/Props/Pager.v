(* C41: paging. *)
From Verif.Lib Require Import Base.
From Verif.Model Require Import Midi Pager.
From Verif.Spec Require Import Pager.
From Verif.Proofs Require Pager.

(* No sequence of pushes raises. *)
Theorem C41_never_raises : forall pages sel ids ops, exists s, history pages sel ids ops s.
Proof. exact Pager.never_raises. Qed.
Print Assumptions C41_never_raises.

(* The current page is always one of the pages. *)
Theorem C41_current : forall pages sel ids ops s, pages <> [] -> history pages sel ids ops s -> exists i p, current_page pages s i p.
Proof. exact Pager.current_exists. Qed.
Print Assumptions C41_current.

(* Without own page, k pushes of the pager move on by k pages, cyclically, from wherever it is. *)
Theorem C41_rotation : forall pages ids ops pushes s1 s2 i, pages <> [] ->
  history pages None ids ops s1 -> h_index s1 = Some i -> Forall is_push pushes -> history pages None ids (ops ++ pushes) s2 ->
  h_index s2 = Some ((i + length pushes) mod length pages)%nat.
Proof. intros pages ids ops pushes s1 s2 i H. exact (Pager.rotates pages None ids ops pushes s1 s2 i H eq_refl). Qed.
Print Assumptions C41_rotation.

(* A pager with its own page selects exactly this page. *)
Theorem C41_direct : forall pages id ids ops es en s, id <> 0 -> (exists p, In p pages /\ pg_id p = id) ->
  history pages (Some id) ids (ops ++ [GPush es en]) s -> exists i p, current_page pages s i p /\ pg_id p = id /\ first_with pages id i.
Proof. exact Pager.direct_self. Qed.
Print Assumptions C41_direct.

(* A proxy selects exactly its page; a proxy for an unknown page does nothing. *)
Theorem C41_proxy : forall pages sel ids ops k es en s id a, nth_error ids k = Some (id, a) -> (exists p, In p pages /\ pg_id p = id) ->
  history pages sel ids (ops ++ [GProxy k es en]) s -> exists i p, current_page pages s i p /\ pg_id p = id /\ first_with pages id i.
Proof. exact Pager.direct_proxy. Qed.
Print Assumptions C41_proxy.
Theorem C41_unknown_proxy : forall pages sel ids ops k es en s s' id a, nth_error ids k = Some (id, a) ->
  ~ (exists p, In p pages /\ pg_id p = id) ->
  history pages sel ids ops s -> history pages sel ids (ops ++ [GProxy k es en]) s' -> s' = s.
Proof. exact Pager.unknown_proxy. Qed.
Print Assumptions C41_unknown_proxy.

(* An attached action with an id is enabled iff it has the id of the current page. *)
Theorem C41_enabled : forall pages sel ids ops s a, pages <> [] -> history pages sel ids ops s ->
  (attached_enabled s (Some a) = true <-> exists i p, current_page pages s i p /\ pg_id p = a).
Proof. exact Pager.enabled_iff. Qed.
Print Assumptions C41_enabled.

(* Drawing an enabled pager shows the current page's text and colour, and every enabled proxy of a known page, as selected iff its
   page is the current one. *)
Theorem C41_displays : forall pages sel ids ops s en e i p, history pages sel ids ops s -> current_page pages s i p ->
  pager_draw (pager_of pages sel) s (proxies_of pages ids) true en = Ok e ->
  In (GLabel (text_of p) (color_of p)) e /\
  (forall n b c, In (GProxyLed n c b) e -> exists id q, nth_error ids n = Some (id, true) /\ en n = true /\
     (exists j, first_with pages id j /\ nth_error pages j = Some q /\ c = color_of q /\ (b = On <-> j = i) /\ (b = Off <-> j <> i))) /\
  (forall n id, nth_error ids n = Some (id, true) -> en n = true -> (exists q, In q pages /\ pg_id q = id) -> exists c b, In (GProxyLed n c b) e).
Proof. exact Pager.draw_shows. Qed.
Print Assumptions C41_displays.

(* The pager's own LED: lit iff the page it selects is the current one; a rotating pager shows the current page's colour. *)
Theorem C41_own_led : forall pages sel ids ops s en e i p, history pages sel ids ops s -> current_page pages s i p ->
  pager_draw (pager_of pages sel) s (proxies_of pages ids) true en = Ok e ->
  exists c b, (forall c' b', In (GLed c' b') e <-> c' = c /\ b' = b) /\
    ((exists id j q, sel = Some id /\ id <> 0 /\ first_with pages id j /\ nth_error pages j = Some q /\ c = color_of q /\
        (b = On <-> j = i) /\ (b = Off <-> j <> i)) \/
     ((forall id, sel = Some id -> id = 0 \/ forall q, In q pages -> pg_id q <> id) /\ c = color_of p /\ b = Normal)).
Proof. exact Pager.own_led. Qed.
Print Assumptions C41_own_led.

Definition three : list page := [mkPage 1 (Some 10) (Some 1); mkPage 2 None (Some 2); mkPage 3 (Some 30) None].
Definition yes : nat -> bool := fun _ => true.

Example C41_ex : exists s, history three None [(3, true); (7, true)] [GPush true yes; GPush true yes; GPush true yes; GPush true yes; GProxy 0 true yes; GProxy 1 true yes] s
  /\ h_id s = Some 3 /\ attached_enabled s (Some 3) = true /\ attached_enabled s (Some 1) = false.
Proof. eexists. split; [eexists _, _; split; reflexivity|]. repeat split. Qed.
Example C41_display_ex : exists s0 s e, pager_init (pager_of three (Some 1)) = Ok s0 /\
  pgrun (pager_of three (Some 1)) (proxies_of three [(2, true); (3, true)]) s0 [GProxy 1 true yes] = Ok (s, e) /\
  e = [GReset; GLed 10 Off; GLabel 0 30; GProxyLed 0 white Off; GProxyLed 1 30 On].
Proof. eexists _, _, _. repeat split. Qed.

(* Findings. A page id 0 as own page is ignored and the pager rotates; the same for an id that does not exist. *)
Theorem C41_zero_page_refuted : exists pages id p s, nth_error pages 1 = Some p /\ pg_id p = id /\
  history pages (Some id) [] [GPush true yes; GPush true yes] s /\ h_id s <> Some id.
Proof.
  exists [mkPage 5 None None; mkPage 0 None None; mkPage 7 None None], 0. eexists _, _.
  split; [reflexivity|]. split; [reflexivity|]. split; [eexists _, _; split; reflexivity|]. discriminate.
Qed.
Print Assumptions C41_zero_page_refuted.

Theorem C41_unknown_page_refuted : exists s, history three (Some 9) [] [GPush true yes] s /\ h_id s = Some 2.
Proof. eexists. split; [eexists _, _; split; reflexivity|]. reflexivity. Qed.
Print Assumptions C41_unknown_page_refuted.

(* A pager given mappings raises at the first periodic update; without, the periodic update never redraws anything - so a pager
   that is itself on a page of another pager is not redrawn when that page is entered. *)
Example C41_mappings_finding : pager_update (pager_config three None 1) = Raise.
Proof. reflexivity. Qed.
Example C41_no_redraw_finding : pager_update (pager_config three None 0) = Ok [].
Proof. reflexivity. Qed.
