(* C31 and C32 *)
From Verif.Lib Require Import Base.
From Verif.Model Require Import BinaryCb.
From Verif.Spec Require Import BinaryCb.
From Verif.Proofs Require BinaryCb.
Open Scope Z_scope.

(* C31: the state after any history of display updates, user actions and resets is the specified one. *)
Theorem C31_state : forall c ops b,
  on_after (bc_mode c) (bc_ref c) (rev ops) b <-> b_on (fst (run (bstep c) (binit c) ops)) = b.
Proof. exact BinaryCb.c31_state. Qed.
Print Assumptions C31_state.

(* Display updates send nothing. *)
Theorem C31_silent : forall c s v color, Forall (fun e => is_show e = true) (snd (bstep c s (Update v color))).
Proof. exact BinaryCb.c31_silent. Qed.
Print Assumptions C31_silent.

(* After a display update the last thing shown is the current state in the current colour. *)
Theorem C31_displayed : forall c ops v color,
  let r := run (bstep c) (binit c) (ops ++ [Update v color]) in
  exists before after,
    snd r = before ++
      EShow color (b_on (fst r) && bc_live c)
        (if negb (bc_text c) then TextUnchanged
         else if b_on (fst r) || negb (bc_live c) then TextNormal
         else if bc_text_dis c then TextDisabled else TextNormal) :: after /\
    Forall (fun e => is_show e = false) after.
Proof. exact BinaryCb.c31_displayed. Qed.
Print Assumptions C31_displayed.

Definition at_least_one (off : offval) : bcfg := mkBcfg GREATER_EQUAL 1 (SOne 1) off false true true false.
Definition c31_history : list bop := [Update (Some 0) 7; User true; Update (Some 1) 7; Renew; Update (Some 5) 8; Update None 8].
Example C31_example :
  map (fun n => b_on (fst (run (bstep (at_least_one (OOne (Some 0)))) (binit (at_least_one (OOne (Some 0)))) (firstn n c31_history))))
      [1; 2; 3; 5; 6]%nat = [false; true; true; true; false] /\
  snd (run (bstep (at_least_one (OOne (Some 0)))) (binit (at_least_one (OOne (Some 0)))) c31_history) =
    [EShow 7 false TextNormal; ESet false (SOne 1); EAsk; EShow 7 true TextNormal; EShow 8 true TextNormal; EShow 8 false TextNormal].
Proof. split; reflexivity. Qed.

(* The naive reading, "after a display update with value v the action is on iff v compares", is false: when the device
   does not follow a command and keeps reporting the old value, the action keeps showing what the user wanted. *)
Theorem C31_ignored_command_refuted : exists ops v color,
  let c := at_least_one (OOne (Some 0)) in
  ~ compares (bc_mode c) v (bc_ref c) /\
  b_on (fst (run (bstep c) (binit c) (ops ++ [Update (Some v) color]))) = true.
Proof. exists [Update (Some 0) 7; User true], 0, 7. split; [cbn; lia|reflexivity]. Qed.
Print Assumptions C31_ignored_command_refuted.

(* Effect slots: if the "on" value has been reported before the slot's type and one more display update happens in
   between, the action shows "off" although the slot has an effect and the device says it is on - with no user action
   at all. *)
Definition fx_slot : ecfg := mkEcfg (at_least_one (OOne (Some 0))) (fun t => if t =? 0 then 0 else 1) (fun cat _ => cat).
Theorem C31_effect_slot_refuted : exists reports : list (option Z * option Z),
  let s := fold_left (fun s r => fst (e_update fx_slot s (fst r) (snd r))) reports (mkE (binit (e_base fx_slot)) None) in
  last reports (None, None) = (Some 1, Some 11) /\ e_category fx_slot 11 <> CATEGORY_NONE /\ b_on (e_b s) = false.
Proof.
  exists [(Some 1, None); (Some 1, None); (Some 1, Some 11)]. split; [reflexivity|]. split; [discriminate|reflexivity].
Qed.
Print Assumptions C31_effect_slot_refuted.

(* Apart from the text, an effect slot behaves like an ordinary switch that is forced off by every report of an empty slot and gets the
   colour of the reported type: C31 and C32 hold for it. *)
Theorem C31_effect_slot : forall c ops, run (bstep (e_base c)) (binit (e_base c)) (base_ops c ops) =
  (e_b (fst (run (e_step c) (e_init c) ops)), base_evs (snd (run (e_step c) (e_init c) ops))).
Proof. exact BinaryCb.effect_base. Qed.
Print Assumptions C31_effect_slot.

(* The text is written exactly when the reported type is another one than before; after a report of a known type the text written last is
   that of the type. *)
Theorem C31_effect_texts : forall c ops o, texts (snd (e_step c (fst (run (e_step c) (e_init c) ops)) o)) =
  match o with
  | EReport _ ty => if opt_eqb (known_type (rev ops)) ty then [] else [(slot_category c ty, ty)]
  | _ => []
  end.
Proof. exact BinaryCb.effect_texts. Qed.
Print Assumptions C31_effect_texts.
Theorem C31_effect_text_current : forall c ops v t,
  exists before, texts (snd (run (e_step c) (e_init c) (ops ++ [EReport v (Some t)]))) = before ++ [(e_category c t, Some t)].
Proof. exact BinaryCb.effect_text_current. Qed.
Print Assumptions C31_effect_text_current.
Example C31_effect_example : texts (snd (run (e_step fx_slot) (e_init fx_slot)
  [EReport None None; EReport (Some 1) (Some 11); EReport (Some 0) (Some 11); EUser true; EReport (Some 0) (Some 12); ERenew; EReport (Some 0) (Some 12)])) =
  [(e_category fx_slot 11, Some 11); (e_category fx_slot 12, Some 12); (e_category fx_slot 12, Some 12)].
Proof. reflexivity. Qed.

(* If the type is not known when the slot is drawn again (reset), no text is written: the label keeps whatever it showed. *)
Theorem C31_effect_text_unknown_refuted : exists c ops v,
  texts (snd (run (e_step c) (e_init c) (ops ++ [ERenew; EReport v None]))) = [(e_category c 11, Some 11)] /\ ops = [EReport v (Some 11)].
Proof. exists fx_slot, [EReport (Some 1) (Some 11)], (Some 1). split; reflexivity. Qed.
Print Assumptions C31_effect_text_unknown_refuted.

(* C32, one off value: what is sent when the user switches off and on. *)
Theorem C32_auto_off : forall c ops x r,
  bc_mode c <> NO_STATE_CHANGE -> bc_disable c = OOne x -> last_off (bc_mode c) (bc_ref c) (rev ops) r ->
  filter is_set (snd (bstep c (fst (run (bstep c) (binit c) ops)) (User false))) =
    match fill r x with Some z => [ESet (bc_has_dis_map c) (SOne z)] | None => [] end /\
  filter is_set (snd (bstep c (fst (run (bstep c) (binit c) ops)) (User true))) = [ESet false (bc_enable c)].
Proof. exact BinaryCb.c32_one. Qed.
Print Assumptions C32_auto_off.

(* C32, a list of off values: each automatic entry is replaced by the remembered value; as long as one is unknown
   nothing is sent. *)
Theorem C32_auto_off_list : forall c ops l r,
  bc_mode c <> NO_STATE_CHANGE -> bc_disable c = OMany l -> last_off (bc_mode c) (bc_ref c) (rev ops) r ->
  let sent on := filter is_set (snd (bstep c (fst (run (bstep c) (binit c) ops)) (User on))) in
  (forall zs, map (fill r) l = map Some zs ->
     sent false = [ESet (bc_has_dis_map c) (SMany zs)] /\ sent true = [ESet false (bc_enable c)]) /\
  (In None (map (fill r) l) -> sent false = [] /\ sent true = []).
Proof. exact BinaryCb.c32_many. Qed.
Print Assumptions C32_auto_off_list.

(* The remembered value is determined by the history. *)
Theorem C32_remembered_determined : forall m ref rh, exists x, last_off m ref rh x /\ forall y, last_off m ref rh y -> y = x.
Proof.
  exact (fun m ref rh => match BinaryCb.last_off_exists m ref rh with
    ex_intro _ x H => ex_intro _ x (conj H (fun y Hy => BinaryCb.last_off_fun m ref rh y x Hy H)) end).
Qed.
Print Assumptions C32_remembered_determined.

Example C32_example :
  let c := mkBcfg GREATER_EQUAL 100 (SOne 127) (OOne None) false true false false in
  snd (run (bstep c) (binit c) [User false; Update (Some 42) 1; User true; Update (Some 127) 1; User false]) =
    [EAsk; EShow 1 false TextUnchanged; ESet false (SOne 127); EAsk; EShow 1 true TextUnchanged; ESet false (SOne 42); EAsk] /\
  last_off (bc_mode c) (bc_ref c) (rev [User false; Update (Some 42) 1; User true; Update (Some 127) 1]) (Some 42).
Proof.
  split; [reflexivity|]. apply lo_on; [cbn; lia|]. apply lo_other; [discriminate|]. apply lo_off. cbn; lia.
Qed.

(* With a list of off values containing an unresolved automatic entry, not even switching ON sends anything. *)
Theorem C32_enable_blocked_refuted : exists c ops,
  filter is_set (snd (bstep c (fst (run (bstep c) (binit c) ops)) (User true))) = [] /\
  bc_disable c = OMany [Some 0; None].
Proof. exists (at_least_one (OMany [Some 0; None])), []. split; reflexivity. Qed.
Print Assumptions C32_enable_blocked_refuted.

(* In NO_STATE_CHANGE mode a value is remembered only if the action was off when it was reported for the first time. *)
Theorem C32_no_state_change_refuted : exists c ops v,
  bc_disable c = OOne None /\ bc_mode c = NO_STATE_CHANGE /\
  last (rev ops) (Force true) = Update (Some 1) 1 /\ hd (Force true) (rev ops) = Update (Some v) 1 /\
  b_on (fst (run (bstep c) (binit c) ops)) = false /\
  filter is_set (snd (bstep c (fst (run (bstep c) (binit c) ops)) (User false))) <> [ESet false (SOne v)].
Proof.
  exists (mkBcfg NO_STATE_CHANGE 1 (SOne 1) (OOne None) false true false false),
    [Update (Some 1) 1; User true; Update (Some 42) 1; User false; Update (Some 42) 1], 42.
  repeat split; cbn; discriminate.
Qed.
Print Assumptions C32_no_state_change_refuted.
