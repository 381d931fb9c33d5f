(* C42 - C45, C60, C61: rig and bank switches. *)
From Verif.Lib Require Import Base.
From Verif.Model Require Import Midi Rig.
From Verif.Spec Require Import Rig.
From Verif.Proofs Require Rig.

(* ---- C42 ---- *)

(* A press moves the device (no bank waiting) to the neighbouring rig; nothing is sent if there is none. *)
Theorem C42_device : forall up keep id sent sh x sh' m, valid_id id ->
  rig_change_push up keep (Some id) sent sh = (x, sh', m) ->
  react_all (mkDevice id None) m = mkDevice (neighbour up keep id) None /\ valid_id (neighbour up keep id).
Proof. intros. split; [eapply Rig.rig_change_device; eauto|apply Rig.neighbour_valid; auto]. Qed.
Print Assumptions C42_device.

(* The messages: a bank message exactly when the bank changes, then the rig message. *)
Theorem C42_messages : forall up keep id sent sh x sh' m, valid_id id ->
  rig_change_push up keep (Some id) sent sh = (x, sh', m) ->
  let n := neighbour up keep id in
  m = if n =? id then [] else (if n / 5 =? id / 5 then [] else [CC 47 (n / 5)]) ++ [CC (50 + n mod 5) 1].
Proof. exact Rig.rig_change_messages. Qed.
Print Assumptions C42_messages.

Theorem C42_up_down : forall id, valid_id id ->
  neighbour false false (neighbour true false id) = id /\ neighbour true false (neighbour false false id) = id /\
  (neighbour true true id <> id -> neighbour false true (neighbour true true id) = id) /\
  (neighbour false true id <> id -> neighbour true true (neighbour false true id) = id).
Proof. intros id H. destruct (Rig.up_down_back id H), (Rig.up_down_keep id H). auto. Qed.
Print Assumptions C42_up_down.

(* Keeping the bank: it is kept, and nothing happens exactly at the ends. k presses up: k rigs on, wrapping at 625. *)
Theorem C42_keep_bank : forall up id, valid_id id -> neighbour up true id / 5 = id / 5 /\
  (neighbour up true id = id <-> id mod 5 = if up then 4 else 0).
Proof. exact Rig.keep_bank_ends. Qed.
Print Assumptions C42_keep_bank.
Theorem C42_many : forall id k, valid_id id -> Nat.iter k (neighbour true false) id = (id + Z.of_nat k) mod 625.
Proof. exact Rig.up_iter. Qed.
Print Assumptions C42_many.

(* Every press that sent a rig message is followed by one matching release: in any history of any set of switches in which
   switch k is pressed and released alternately, the rig messages of k are select/release pairs. Covers C44 and C45. *)
Theorem C42_pairing : forall cfg fuel ops w ev k, (forall j, good_cb (cfg j)) -> whistory cfg fuel ops w ev -> alternates k false ops = true ->
  exists rs, filter is_rig (sent_by k ev) = pairs rs /\ forall r, In r rs -> 0 <= r <= 4.
Proof. exact Rig.pairing. Qed.
Print Assumptions C42_pairing.

(* Nothing is lost in between: a press adds at most one rig message and the release right after it exactly its counterpart. *)
Theorem C42_press_release : forall cfg fuel ops w ev k w1 e1 w2 e2, (forall j, good_cb (cfg j)) -> whistory cfg fuel ops w ev -> alternates k false ops = true ->
  wstep cfg fuel w (Press k) = Some (w1, e1) -> wstep cfg fuel w1 (Let_go k) = Some (w2, e2) ->
  forall r, In (CC (50 + r) 1) (sent_by k e1) -> 0 <= r -> filter is_rig (sent_by k e2) = [CC (50 + r) 0].
Proof. exact Rig.press_release. Qed.
Print Assumptions C42_press_release.

Definition set1 (k : nat) : cb :=
  match k with
  | 0%nat => RigChange true false
  | 1%nat => RigSelect (mkRsCfg (Some 3) (ONum 1) (Some 2) (ONum 4) [] false false)
  | 2%nat => BankSelect (mkBsCfg 7 (Some 2) false)
  | 3%nat => BankChange (mkBcCfg true (Some 10) true)
  | 4%nat => RigSelect (mkRsCfg (Some 2) OAuto None ONone [] false false)
  | 5%nat => BankSelect (mkBsCfg 9 None true)
  | _ => RigSelect (mkRsCfg (Some 3) OAuto (Some 2) OAuto [] false false)
  end.
Lemma set1_good : forall j, good_cb (set1 j).
Proof. intros j. do 6 (destruct j as [|j]; [cbn; repeat split; lia|]). cbn; repeat split; lia. Qed.
Example C42_ex : exists w ev, whistory set1 200 [Report (Some 4); Press 0; Let_go 0; Report (Some 5); Press 1; Let_go 1; Press 0; Let_go 0] w ev /\
  alternates 0 false [Report (Some 4); Press 0; Let_go 0; Report (Some 5); Press 1; Let_go 1; Press 0; Let_go 0] = true /\
  sent_by 0 ev = [CC 47 1; CC 50 1; CC 50 0; CC 51 1; CC 51 0] /\ sent_by 1 ev = [CC 47 1; CC 52 1; CC 52 0] /\ neighbour true false 4 = 5.
Proof. eexists _, _. split; [reflexivity|]. repeat split. Qed.

(* Finding: with a bank preselected, rig up/down goes to a rig of the preselected bank and the bank stays displayed as preselected. *)
Theorem C42_preselect_refuted : exists w ev w' m, whistory set1 200 [Report (Some 20); Press 5; Let_go 5] w ev /\
  wstep set1 200 w (Press 0) = Some (w', map (pair 0%nat) m) /\
  react_all (mkDevice 20 None) (map snd ev ++ m) = mkDevice 41 None /\ neighbour true false 20 = 21 /\ s_pre (w_sh w') = Some 8.
Proof. eexists _, _, _, _. split; [reflexivity|]. split; [reflexivity|]. repeat split. Qed.
Print Assumptions C42_preselect_refuted.

(* ---- C43 ---- *)

(* k presses of the same switch: each requests the next bank, starting at the preselected (else the current) bank, wrapping within
   the available banks; the last one is preselected. *)
Theorem C43_presses : forall c id fuel, bc_pre c = true -> 0 <= id -> 0 < bc_num c -> bc_num c <= Z.of_nat fuel -> forall k sh,
  0 <= base_bank id sh -> base_bank id sh + 1 <= Z.of_nat fuel ->
  exists sh', presses fuel c (Some id) sh k =
    Some (sh', map (fun i => CC 47 ((base_bank id sh + (if bc_up c then 1 else -1) * Z.of_nat i) mod bc_num c)) (seq 1 k)) /\
    match k with O => sh' = sh | _ => s_pre sh' = Some ((base_bank id sh + (if bc_up c then 1 else -1) * Z.of_nat k) mod bc_num c) end.
Proof. exact Rig.bank_presses. Qed.
Print Assumptions C43_presses.

Theorem C43_in_range : forall c id sh fuel, bc_pre c = true -> 0 <= id -> 0 < bc_num c -> 0 <= base_bank id sh ->
  base_bank id sh + 1 <= Z.of_nat fuel -> bc_num c <= Z.of_nat fuel ->
  exists b, b = (base_bank id sh + if bc_up c then 1 else -1) mod bc_num c /\ 0 <= b < bc_num c /\
    bank_change_push fuel c (Some id) sh = Some (mkShared (Some b) (Some 0), [CC 47 b]).
Proof. exact Rig.bank_press. Qed.
Print Assumptions C43_in_range.

Theorem C43_inverse : forall c1 c2 id sh sh1 m1 fuel, bc_pre c1 = true -> bc_pre c2 = true -> bc_max c1 = bc_max c2 -> bc_up c1 = negb (bc_up c2) ->
  0 <= id -> 0 <= base_bank id sh < bc_num c1 -> bc_num c1 <= Z.of_nat fuel ->
  bank_change_push fuel c1 (Some id) sh = Some (sh1, m1) ->
  exists sh2, bank_change_push fuel c2 (Some id) sh1 = Some (sh2, [CC 47 (base_bank id sh)]) /\ s_pre sh2 = Some (base_bank id sh).
Proof. exact Rig.bank_up_down. Qed.
Print Assumptions C43_inverse.

(* Without preselection: one message per press, whatever is known *)
Theorem C43_plain : forall c v fuel k sh, bc_pre c = false ->
  exists sh', presses fuel c v sh k = Some (sh', repeat (CC (if bc_up c then 48 else 49) 0) k) /\ s_pre sh' = s_pre sh.
Proof. exact Rig.plain_presses. Qed.
Print Assumptions C43_plain.

Example C43_ex : exists sh, presses 200 (mkBcCfg true (Some 10) true) (Some 38) no_shared 4 = Some (sh, [CC 47 8; CC 47 9; CC 47 0; CC 47 1]) /\ s_pre sh = Some 1.
Proof. eexists. split; reflexivity. Qed.
Example C43_ex2 : exists sh, presses 200 (mkBcCfg false None true) (Some 7) no_shared 3 = Some (sh, [CC 47 0; CC 47 124; CC 47 123]).
Proof. eexists. reflexivity. Qed.

(* Finding: with a maximum of no banks the press never returns. *)
Theorem C43_zero_refuted : forall fuel c id sh, bc_pre c = true -> bc_num c <= 0 -> bank_change_push fuel c (Some id) sh = None.
Proof. exact Rig.no_banks. Qed.
Print Assumptions C43_zero_refuted.

(* ---- C44 ---- *)

(* In every reached state with a known rig, a press sends a bank message iff a bank is configured and none is preselected, then one
   rig message; the device ends at the configured rig or, when already there, at the off rig; the preselection is over. *)
Theorem C44_press : forall cfg fuel ops w ev k c id, cfg k = RigSelect c -> good_rs c -> whistory cfg fuel ops w ev -> reports_valid ops ->
  w_id w = Some id ->
  exists w' b r, wstep cfg fuel w (Press k) = Some (w', map (pair k) (b ++ [CC (50 + r) 1])) /\ 0 <= r <= 4 /\
    react_all (mkDevice id (s_pre (w_sh w))) (b ++ [CC (50 + r) 1]) =
      mkDevice (target c (off_rig c (drawn k None ops)) (off_bank c (drawn k None ops)) (s_pre (w_sh w)) id) None /\
    ((rs_bank c <> None /\ s_pre (w_sh w) = None /\ exists x, b = [CC 47 x]) \/ ((rs_bank c = None \/ s_pre (w_sh w) <> None) /\ b = [])) /\
    s_pre (w_sh w') = None.
Proof. exact Rig.rs_press_history. Qed.
Print Assumptions C44_press.

(* Also when the current rig is not known *)
Theorem C44_unknown : forall c s sh s' sh' ms r, rs_rig c = Some r -> rs_push c None s sh = (s', sh', ms) ->
  ms = (match rs_bank c, s_pre sh with Some b, None => [CC 47 (b - 1)] | _, _ => [] end) ++ [CC (50 + (r - 1)) 1] /\ s_pre sh' = None.
Proof. exact Rig.rs_unknown. Qed.
Print Assumptions C44_unknown.

Theorem C44_pairing : forall cfg fuel ops w ev k c, cfg k = RigSelect c -> (forall j, good_cb (cfg j)) -> whistory cfg fuel ops w ev -> alternates k false ops = true ->
  exists rs, filter is_rig (sent_by k ev) = pairs rs /\ forall r, In r rs -> 0 <= r <= 4.
Proof. intros. eapply Rig.pairing; eauto. Qed.
Print Assumptions C44_pairing.

Example C44_ex : let ops := [Report (Some 7); Draw 1] in exists w ev w' , whistory set1 200 ops w ev /\ reports_valid ops /\
  wstep set1 200 w (Press 1) = Some (w', map (pair 1%nat) [CC 47 3; CC 50 1]) /\
  target (mkRsCfg (Some 3) (ONum 1) (Some 2) (ONum 4) [] false false) (Some 1) (Some 4) None 7 = 15 /\
  target (mkRsCfg (Some 3) (ONum 1) (Some 2) (ONum 4) [] false false) (Some 1) (Some 4) None 8 = 7 /\
  target (mkRsCfg (Some 3) (ONum 1) (Some 2) (ONum 4) [] false false) (Some 1) (Some 4) (Some 8) 7 = 42.
Proof.
  eexists _, _, _. split; [reflexivity|]. split; [|repeat split].
  intros id [E | [E | []]]; [injection E as <-; unfold valid_id; lia|discriminate].
Qed.

(* ---- C45 ---- *)

Theorem C45_press : forall c sent sh id sent' sh' ms, 0 <= id -> bs_push c (Some id) sent sh = (sent', sh', ms) ->
  let b := match (if bs_pre c then None else bs_bank_off c) with Some bo => if id / 5 =? bs_bank c - 1 then bo - 1 else bs_bank c - 1 | None => bs_bank c - 1 end in
  ms = (if bs_pre c then [CC 47 b] else [CC 47 b; CC (50 + id mod 5) 1]) /\
  forall p, react_all (mkDevice id p) ms = if bs_pre c then mkDevice id (Some b) else mkDevice (rig_id b (id mod 5)) None.
Proof. exact Rig.bank_select_press. Qed.
Print Assumptions C45_press.

Theorem C45_pairing : forall cfg fuel ops w ev k c, cfg k = BankSelect c -> (forall j, good_cb (cfg j)) -> whistory cfg fuel ops w ev -> alternates k false ops = true ->
  exists rs, filter is_rig (sent_by k ev) = pairs rs /\ forall r, In r rs -> 0 <= r <= 4.
Proof. intros. eapply Rig.pairing; eauto. Qed.
Print Assumptions C45_pairing.

(* In preselect mode no rig is ever selected, in no history *)
Theorem C45_no_rig : forall cfg fuel ops w ev k c, cfg k = BankSelect c -> bs_pre c = true -> whistory cfg fuel ops w ev ->
  filter is_rig (sent_by k ev) = [].
Proof. exact Rig.preselect_no_rig. Qed.
Print Assumptions C45_no_rig.

(* and the preselection is shown iff another bank is current or one is shown already *)
Theorem C45_preselection : forall c sent sh id sent' sh' ms, 0 <= id -> bs_pre c = true -> bs_push c (Some id) sent sh = (sent', sh', ms) ->
  s_pre sh' = if (id / 5 =? bs_bank c - 1) then (match s_pre sh with Some _ => Some (bs_bank c - 1) | None => None end) else Some (bs_bank c - 1).
Proof. exact Rig.bank_select_shown. Qed.
Print Assumptions C45_preselection.

Example C45_ex : exists w ev, whistory set1 200 [Report (Some 33); Press 2; Let_go 2; Report (Some 8); Press 2; Let_go 2; Press 5; Let_go 5] w ev /\
  sent_by 2 ev = [CC 47 1; CC 53 1; CC 53 0; CC 47 6; CC 53 1; CC 53 0] /\ sent_by 5 ev = [CC 47 8] /\ s_pre (w_sh w) = Some 8.
Proof. eexists _, _. split; [reflexivity|]. repeat split. Qed.

(* ---- C60: the automatic off rig ---- *)

(* The off numbers used are the fixed ones, or those of the last other rig / other bank displayed (separately). *)
Theorem C60_off_numbers : forall cfg fuel k c, cfg k = RigSelect c -> forall ops w ev, whistory cfg fuel ops w ev -> reports_valid ops ->
  k_rig_off (w_st w k) = off_rig c (drawn k None ops) /\ k_bank_off (w_st w k) = off_bank c (drawn k None ops).
Proof. intros cfg fuel k c Hk ops w ev H Hv. destruct (Rig.off_tracked cfg fuel k c Hk ops w ev H Hv) as (_ & _ & A & B & _). auto. Qed.
Print Assumptions C60_off_numbers.

(* Returning to the previous rig a: proved when only the rig is configured and a is in the same bank, or rig and bank are configured
   (both automatic) and a differs in both. The full claim - for every a - is false, see below. *)
Theorem C60_return_partial : forall cfg fuel ops w ev k c a b r, cfg k = RigSelect c -> good_rs c -> rs_rig c = Some r -> rs_rig_off c = OAuto ->
  existsb (Z.eqb (a mod 5 + 1)) (rs_exclude c) = false -> a mod 5 + 1 <> r ->
  (rs_bank c = None /\ a / 5 = b / 5 \/ exists n, rs_bank c = Some n /\ rs_bank_off c = OAuto /\ a / 5 + 1 <> n) ->
  already_there c b = true ->
  reports_valid (ops ++ [Report (Some a); Draw k; Report (Some b); Draw k]) ->
  whistory cfg fuel (ops ++ [Report (Some a); Draw k; Report (Some b); Draw k]) w ev -> s_pre (w_sh w) = None ->
  exists w' m, wstep cfg fuel w (Press k) = Some (w', map (pair k) m) /\ react_all (mkDevice b None) m = mkDevice a None.
Proof. exact Rig.auto_return. Qed.
Print Assumptions C60_return_partial.

Example C60_ex : exists w ev w' m, whistory set1 200 [Report (Some 33); Draw 6; Report (Some 7); Draw 6] w ev /\
  wstep set1 200 w (Press 6) = Some (w', map (pair 6%nat) m) /\ react_all (mkDevice 7 None) m = mkDevice 33 None.
Proof. eexists _, _, _, _. split; [reflexivity|]. split; reflexivity. Qed.

(* Finding: from rig 3 of bank 7 (id 32) via rig 3 of bank 2 (the configured one), the switch returns to rig 1 of bank 7; from rig 4
   of bank 2 to rig 4 of bank 1. *)
Theorem C60_return_refuted : exists w ev w' m, whistory set1 200 [Report (Some 32); Draw 6; Report (Some 7); Draw 6] w ev /\
  wstep set1 200 w (Press 6) = Some (w', map (pair 6%nat) m) /\ react_all (mkDevice 7 None) m = mkDevice 30 None.
Proof. eexists _, _, _, _. split; [reflexivity|]. split; reflexivity. Qed.
Print Assumptions C60_return_refuted.
Theorem C60_same_bank_refuted : exists w ev w' m, whistory set1 200 [Report (Some 8); Draw 6; Report (Some 7); Draw 6] w ev /\
  wstep set1 200 w (Press 6) = Some (w', map (pair 6%nat) m) /\ react_all (mkDevice 7 None) m = mkDevice 3 None.
Proof. eexists _, _, _, _. split; [reflexivity|]. split; reflexivity. Qed.
Print Assumptions C60_same_bank_refuted.

(* ---- C61: what is shown as preselected is what the device waits for ---- *)

Theorem C61_shown : forall cfg fuel ops w ev d b, (forall k, preselects (cfg k)) -> whistory cfg fuel ops w ev -> s_pre (w_sh w) = Some b ->
  d_pending (react_all d (map snd ev)) = Some b.
Proof. exact Rig.preselected_shown. Qed.
Print Assumptions C61_shown.

Theorem C61_next : forall cfg fuel ops w ev d b k c r, (forall k, preselects (cfg k)) -> whistory cfg fuel ops w ev -> s_pre (w_sh w) = Some b ->
  cfg k = RigSelect c -> rs_rig c = Some r ->
  exists w' m, wstep cfg fuel w (Press k) = Some (w', map (pair k) m) /\ s_pre (w_sh w') = None /\
    react_all (react_all d (map snd ev)) m = mkDevice (rig_id b (r - 1)) None.
Proof. exact Rig.preselected_next. Qed.
Print Assumptions C61_next.

Definition set2 (k : nat) : cb :=
  match k with
  | 0%nat => BankChange (mkBcCfg true (Some 10) true)
  | 1%nat => BankSelect (mkBsCfg 9 None true)
  | 2%nat => BankSelect (mkBsCfg 4 (Some 2) false)
  | _ => RigSelect (mkRsCfg (Some 2) (ONum 3) (Some 2) (ONum 5) [] false false)
  end.
Example C61_ex : (forall k, preselects (set2 k)) /\ exists w ev, whistory set2 200 [Report (Some 20); Press 1; Let_go 1; Press 0; Let_go 0] w ev /\ s_pre (w_sh w) = Some 9.
Proof.
  split; [intros k; do 3 (destruct k as [|k]; [cbn; auto|]); cbn; repeat split; lia|].
  eexists _, _. split; reflexivity.
Qed.

(* With rig up/down among the switches this fails: the device has used the bank, the display still shows it. *)
Theorem C61_rig_change_refuted : exists w ev, whistory set1 200 [Report (Some 20); Press 5; Let_go 5; Press 0; Let_go 0] w ev /\
  s_pre (w_sh w) = Some 8 /\ d_pending (react_all (mkDevice 20 None) (map snd ev)) = None.
Proof. eexists _, _. split; [reflexivity|]. split; reflexivity. Qed.
Print Assumptions C61_rig_change_refuted.
