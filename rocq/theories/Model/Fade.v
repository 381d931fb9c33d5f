(* Morphing in the virtual Kemper of the web application: /repo/web/htdocs/clients/kemper/virtual/VirtualKemperMorph.js, VirtualKemperClientSetup.js 53-79, 154-167 and
   VirtualKemperClientUI.js 171-199. Left out: messages to the controller (VirtualParams.v), sendState, which is never reached (VirtualKemperMorph.js 46: there is no attribute "running"). *)
From Coq Require Import QArith Qround Qabs.
From Verif.Lib Require Import Base.
Local Open Scope list_scope.
Local Open Scope Z_scope.

(* The morph state (parameter [0, 11]), the end of the fade (#fadeTarget), the rig selected last (lastRigId), rigBtnMorph, and the state of its checkbox *)
Record state := { value : Z; target : option Z; last : option Z; rig_morph : bool; checked : bool }.
(* VirtualKemperMorph.js 6-17. The checkbox is set to the attribute "rigBtnMorh", which does not exist, so it is not set at all (UI 191) *)
Definition init : state := {| value := 0; target := None; last := None; rig_morph := true; checked := false |}.
(* VirtualKemperMorph.js 14, 22-24: the step for a fade of [secs] seconds, with an interval of 100 milliseconds; it is always 4 (16) *)
Definition fade_step (secs : Q) : Q := (16384 / ((secs * 1000) / 100))%Q.
Definition round (q : Q) : Z := Qfloor (q + (1 # 2)).
Definition set_value (v : Z) (s : state) : state := {| value := v; target := target s; last := last s; rig_morph := rig_morph s; checked := checked s |}.
Definition set_target (t : option Z) (s : state) : state := {| value := value s; target := t; last := last s; rig_morph := rig_morph s; checked := checked s |}.
(* VirtualKemperMorph.js 26-49: update *)
Definition update (s : state) : state :=
  match target s with
  | None => s
  | Some t =>
    if value s =? t then set_target None s else
    let diff := t - value s in
    if negb (Qle_bool (fade_step 4) (Qabs (inject_Z diff))) then set_value t s
    else set_value (round (inject_Z (value s) + (if 0 <? diff then fade_step 4 else - fade_step 4))%Q) s
  end.
(* 54-64: triggerButton. [bug]: the option simulateMorphBug *)
Definition trigger (bug : bool) (s : state) : state := if bug then s else set_target (Some (if 8191 <? value s then 0 else 16383)) s.
(* What happens: the virtual client is updated; the morph button is pressed (Setup 161-166); a rig is selected with its button (53-79, [rig]: the ID of the rig);
   the morph state is set by the pedal or by the slider (Setup 158, UI 175-183); the checkbox is changed (UI 192-198) *)
Inductive op := Update | Press | Rig (rig : Z) | Slide (v : Z) | Check (on : bool).
Definition step (bug : bool) (s : state) (o : op) : state :=
  match o with
  | Update => update s
  | Press => trigger bug s
  | Rig r =>
    let same := match last s with Some l => l =? r | None => false end in
    let s := if rig_morph s && same then trigger bug s else s in
    let s := if same then s else set_value 0 s in
    {| value := value s; target := target s; last := Some r; rig_morph := rig_morph s; checked := checked s |}
  | Slide v => set_value v s
  | Check b => {| value := value s; target := target s; last := last s; rig_morph := b; checked := b |}
  end.
Definition run (bug : bool) (h : list op) : state := fold_left (step bug) h init.
