(* C86: the MIDI bridge forgets transmissions which are not completed. *)
From Verif.Lib Require Import Base.
From Verif.Model Require Import Midi Bridge.
From Verif.Spec Require Import Bridge.
From Verif.Proofs Require Import BridgeForget BridgeKept.
From Verif.Props Require Import Bridge.
Local Open Scope list_scope.

(* Whatever has happened before (messages lost, repeated, altered, invented, from both sides at any times): when a side starts a transmission or another one starts there,
   each transmission it still holds has been active in the last 5 seconds: it has sent a part of it, or acknowledged one. Except for those of which no part has arrived. *)
Theorem C86_forget_partial : forall files throws seed ops o s now, at_time s o = Some now -> begins s (last_events files throws seed ops o) ->
  let b := n_br (nrun files throws seed (ops ++ [o])) s in
  (forall t, In t (b_tx b) -> exists x, active files throws seed (ops ++ [o]) s 3 (t_id t) x /\ now - x <= 5000) /\
  (forall r, In r (b_rx b) -> r_last r = -1 \/ exists x, active files throws seed (ops ++ [o]) s 4 (r_id r) x /\ now - x <= 5000).
Proof. intros files throws seed ops o s now. exact (forget files throws seed ops o s now). Qed.
Print Assumptions C86_forget_partial.

(* Those which have been active in the last 5 seconds are not forgotten before they are completed *)
Theorem C86_kept : forall files throws seed ops o s now, at_time s o = Some now ->
  let b := n_br (nrun files throws seed ops) s in let b' := n_br (nrun files throws seed (ops ++ [o])) s in let evs := last_events files throws seed ops o in
  (forall t, In t (b_tx b) -> within now (t_time t) -> (exists t', In t' (b_tx b') /\ t_id t' = t_id t) \/ In (s, AckAll (t_id t)) evs) /\
  (forall r, In r (b_rx b) -> within now (r_time r) -> (exists r', In r' (b_rx b') /\ r_id r' = r_id r) \/ exists p d a, In (s, RecvFinish (r_id r) p d a) evs \/ In (s, RecvError d) evs).
Proof. intros files throws seed ops o s now. exact (keep files throws seed ops o s now). Qed.
Print Assumptions C86_kept.

(* A transmission of which no part arrives is never forgotten: an hour later it is still there *)
Definition lost_part : list nop := [NSend Here 0 a_py word 2; NDeliver There 1 0].
Theorem C86_forget_refuted : let ops := lost_part ++ [NSend There 3600000 [98] word 10] in
  begins There (last_events no_files quiet seeds lost_part (NSend There 3600000 [98] word 10)) /\
  exists r, In r (b_rx (n_br (nrun no_files quiet seeds ops) There)) /\ r_last r = -1 /\ forall x, ~ active no_files quiet seeds ops There 4 (r_id r) x.
Proof.
  intros ops. split.
  - left. eexists. split; [vm_compute; left; reflexivity|reflexivity].
  - eexists. split; [vm_compute; left; reflexivity|]. split; [reflexivity|]. intros x [a [o [b [m [rest [E [At [Hm [F _]]]]]]]]].
    destruct a as [|o1 [|o2 [|o3 a]]]; cbn [app ops lost_part] in E; [injection E as <- <-|injection E as <- <- <-|injection E as <- <- <- <-|injection E as <- <- <- E; destruct a; discriminate E]; vm_compute in Hm;
      repeat (destruct Hm as [Hm|Hm]; [try discriminate Hm; injection Hm as <-; discriminate F|]); exact Hm.
Qed.
Print Assumptions C86_forget_refuted.

(* A case: two transmissions; the second part of the first one is lost and it is forgotten on both sides, 6 seconds later; the other one goes on *)
Definition half_lost : list nop :=
  [NSend Here 0 a_py word 2; NDeliver There 1 0; NDeliver There 2 1; NDeliver Here 3 0; NSend Here 3000 [98] word 2; NDeliver There 3001 3; NDeliver There 3002 4].
Example ex_forget : let n k := nrun no_files quiet seeds (half_lost ++ firstn k [NSend Here 6000 [99] word 10; NDeliver There 6001 5]) in
  map (fun t => t_path t) (b_tx (n_br (n 0%nat) Here)) = [a_py; [98]] /\ map (fun t => t_path t) (b_tx (n_br (n 1%nat) Here)) = [[98]; [99]] /\
  map (fun t => r_path t) (b_rx (n_br (n 0%nat) There)) = [a_py; [98]] /\ map (fun t => r_path t) (b_rx (n_br (n 2%nat) There)) = [[98]; [99]] /\
  begins Here (last_events no_files quiet seeds half_lost (NSend Here 6000 [99] word 10)) /\ begins There (last_events no_files quiet seeds (half_lost ++ [NSend Here 6000 [99] word 10]) (NDeliver There 6001 5)).
Proof.
  intros n. repeat (split; [vm_compute; reflexivity|]). clear n. split.
  - left. set (e := last_events _ _ _ _ _). vm_compute in e. subst e. eexists. split; [left; reflexivity|reflexivity].
  - right. set (e := last_events _ _ _ _ _). vm_compute in e. subst e. do 3 eexists. left. reflexivity.
Qed.
