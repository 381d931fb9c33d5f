(* The inputs of the emulated controller: /repo/web/htdocs/js/ui/PySwitchFrontend.js 95-212, js/ui/misc/WcRotationInput.js 107-155, python/wrappers/wrap_io.py 35-110,
   read by hardware/adafruit/AdafruitSwitch.py 22-27, AdafruitEncoder.py 19-25.
   Left out: pedals (a slider whose value is read as it is), LEDs and what is shown, comments for the monitor (Monitor.v). *)
From Verif.Lib Require Import Base.
From Verif.Model Require Import Switch.
Local Open Scope list_scope.

(* Switches are numbered. [g_over]: the switch below the pointer of the mouse; [g_button]: its button is down; [g_pushed]: data attributes (dataset.pushed is "true") *)
Record page := mkPage { g_over : option nat; g_button : bool; g_pushed : nat -> bool }.
Definition set_pushed (f : nat -> bool) (i : nat) (b : bool) : nat -> bool := fun j => if Nat.eqb j i then b else f j.
(* PySwitchFrontend.js 121-127: mousedown, touchstart; 128-134: mouseup, mouseout, mouseleave, touchend *)
Definition down (i : nat) (g : page) : page := mkPage (g_over g) (g_button g) (set_pushed (g_pushed g) i true).
Definition up (i : nat) (g : page) : page := mkPage (g_over g) (g_button g) (set_pushed (g_pushed g) i false).
Definition over (f : nat -> page -> page) (g : page) : page := match g_over g with Some i => f i g | None => g end.
(* What users do, and which events the browser sends for it: the mouse sends events to the element below the pointer, touches to the one where they have started. Touches can be canceled by the system (touchcancel), which nobody listens for *)
Inductive act := MoveTo (i : option nat) | Press | LetGo | TouchStart (i : nat) | TouchEnd (i : nat) | TouchCancel (i : nat).
Definition do_act (g : page) (a : act) : page :=
  match a with
  | MoveTo t =>
      let same := match g_over g, t with Some i, Some j => Nat.eqb i j | None, None => true | _, _ => false end in
      let g' := if same then g else over up g in mkPage t (g_button g') (g_pushed g')
  | Press => if g_button g then g else over down (mkPage (g_over g) true (g_pushed g))
  | LetGo => if g_button g then over up (mkPage (g_over g) false (g_pushed g)) else g
  | TouchStart i => down i g
  | TouchEnd i => up i g
  | TouchCancel _ => g
  end.
Definition new_page : page := mkPage None false (fun _ => false).
(* wrap_io.py 50-59: a switch reads 0 if pushed; AdafruitSwitch.py 22-27: inverse logic *)
Definition value (g : page) (i : nat) : Z := if g_pushed g i then 0 else 1.
Definition pushed (g : page) (i : nat) : bool := value g i =? 0.

(* The emulated controller polls a switch between what the user does; [t], [en]: clock and enabled actions *)
Inductive op := Do (a : act) | Poll (t : Z) (en : Z -> bool).
Fixpoint polls (i : nat) (g : page) (h : list op) : list poll :=
  match h with
  | [] => []
  | Do a :: h => polls i (do_act g a) h
  | Poll t en :: h => mkPoll (pushed g i) t en None :: polls i g h
  end.
(* What the switch does with them (Switch.v) *)
Definition events (c : switch_cfg) (T : Z) (i : nat) (h : list op) : list switch_ev := snd (run (process c) (new_switch T) (polls i new_page h)).

(* WcRotationInput.js 6-12: the wheel. [w_data]: dataset.position (PySwitchFrontend.js 178-181); [w_drag]: the handlers for moves are set.
   Simplification: coordinates are integers *)
Record wheel := mkWheel { w_center : Z; w_start : Z; w_pos : Z; w_data : Z; w_drag : bool }.
Inductive drag := PointerDown (x : Z) | PointerMove (x : Z) | PointerUp.
Definition do_drag (w : wheel) (d : drag) : wheel :=
  match d with
  (* 111-122 *)
  | PointerDown x => mkWheel x (w_pos w) (w_pos w) (w_data w) true
  (* 124-142, with trigger manipulate *)
  | PointerMove x => if w_drag w then let p := w_start w + (x - w_center w) in mkWheel (w_center w) (w_start w) p p true else w
  (* 144-155 *)
  | PointerUp => mkWheel (w_center w) (w_start w) (w_pos w) (w_data w) false
  end.
Definition new_wheel : wheel := mkWheel 0 0 0 0 false.
Definition turn (l : list drag) : wheel := fold_left do_drag l new_wheel.
