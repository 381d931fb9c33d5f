(* clients/local/actions/param_change.py, rotate.py, clients/boomerang/actions/boomerang.py *)
From Verif.Lib Require Import Base.
From Verif.Model Require Import Midi Period.

(* ---- param_change.py:46-162 _ParameterChangeCallback ---- *)

(* param_change.py:48-90. [pc_rep]: repeat_interval_millis (None or 0: no repeat, line 84). [pc_fb]: client.set also stores the
   value in the mapping (client.py:564-575, bidirectional parameters); otherwise the value only changes by reports. *)
Record pconf := mkPconf { pc_off : Z; pc_max : Z; pc_rep : option Z; pc_fb : bool }.

(* param_change.py:78-82: the maximum derived from the set message when none is given *)
Definition derived_max (sysex : bool) (given : option Z) : Z :=
  match given with Some m => m | None => if sysex then 16383 else 127 end.

(* p_value: value of the mapping; p_pushed: __pushed; p_period: __repeat_period; p_shown: __last_value (None inside: -1, 94-95) *)
Record pstate := mkPstate { p_value : option Z; p_pushed : bool; p_period : option period; p_shown : option (option Z) }.

(* param_change.py:84 *)
Definition new_pstate (c : pconf) : pstate :=
  mkPstate None false (match pc_rep c with None => None | Some i => if i =? 0 then None else Some (new_period i) end) None.

(* client.set; switch / label shown for a value: factor numerator and denominator (dim_factor), and the percentage text *)
Inductive pevent := PSend (t : Z) (v : Z) | PDraw (num den : Z) (percent : option Z).

(* param_change.py:112-115: clamp, lower limit first *)
Definition limit (mx v : Z) : Z := let v1 := if v <? 0 then 0 else v in if mx <? v1 then mx else v1.

(* param_change.py:106-130 push *)
Definition p_push (c : pconf) (s : pstate) (now : Z) : pstate * list pevent :=
  match p_value s with
  | None => (s, [])
  | Some cur =>
      let v := limit (pc_max c) (cur + pc_off c) in
      (mkPstate (if pc_fb c then Some v else Some cur) true (option_map (fun p => p_reset p now) (p_period s)) (p_shown s),
       [PSend now v])
  end.

(* param_change.py:97-104 update. The requests sent for the mapping (callbacks/__init__.py:43-45) belong to the client model. *)
Definition p_update (c : pconf) (s : pstate) (now : Z) : pstate * list pevent :=
  if p_pushed s then
    match p_period s with
    | None => (s, [])
    | Some p =>
        let '(r, p') := p_exceeded p now in
        let s' := mkPstate (p_value s) (p_pushed s) (Some p') (p_shown s) in
        if r then p_push c s' now else (s', [])
    end
  else (s, []).

(* param_change.py:132-133 *)
Definition p_release (s : pstate) : pstate := mkPstate (p_value s) false (p_period s) (p_shown s).

(* Python round() of a non-negative fraction a/b: nearest integer, ties to even *)
Definition py_round (a b : Z) : Z :=
  let q := a / b in
  let r := a mod b in
  if 2 * r <? b then q else if b <? 2 * r then q + 1 else if Z.even q then q else q + 1.

Definition opt2_eqb (a : option (option Z)) (v : option Z) : bool :=
  match a, v with Some (Some x), Some y => x =? y | Some None, None => true | _, _ => false end.

(* param_change.py:135-161 update_displays; a value divided by a maximum of 0 raises *)
Definition p_draw (c : pconf) (s : pstate) : res (pstate * list pevent) :=
  if opt2_eqb (p_shown s) (p_value s) then Ok (s, [])
  else
    let s' := mkPstate (p_value s) (p_pushed s) (p_period s) (Some (p_value s)) in
    match p_value s with
    | None => Ok (s', [PDraw (if pc_off c <? 0 then 1 else 0) 1 None])
    | Some v =>
        if pc_max c =? 0 then Raise
        else Ok (s', [PDraw (if pc_off c <? 0 then pc_max c - v else v) (pc_max c) (Some (py_round (v * 100) (pc_max c)))])
    end.

Inductive pop := PPush (t : Z) | PRelease | PUpdate (t : Z) | PReport (v : option Z).
Definition pstep (c : pconf) (s : pstate) (o : pop) : pstate * list pevent :=
  match o with
  | PPush t => p_push c s t
  | PRelease => (p_release s, [])
  | PUpdate t => p_update c s t
  | PReport v => (mkPstate v (p_pushed s) (p_period s) (p_shown s), [])
  end.

(* ---- rotate.py:59-135 _CustomMessagesCallback ---- *)

(* Parameters (rotate.py:67-81); None/empty lists are both falsy and represented by []. Colours and texts are numbers.
   display_colors falls back to led_colors (line 81). *)
Record rconf := mkRconf { ro_msgs : list (list Z); ro_rel : list (list Z); ro_leds : list Z; ro_disp : list Z; ro_texts : list Z }.
Definition disp_colors (c : rconf) : list Z := match ro_disp c with [] => ro_leds c | _ => ro_disp c end.

(* rotate.py:84-88 *)
Record rstate := mkRstate { q_msgs : nat; q_rel : nat; q_leds : nat; q_disp : nat; q_texts : nat }.
Definition new_rstate : rstate := mkRstate 0 0 0 0 0.

(* midi.send of raw bytes; switch colour; label text; label colour *)
Inductive revent := RSend (bytes : list Z) | RLed (c : Z) | RText (t : Z) | RBack (c : Z).

(* indexing a list: IndexError if out of range *)
Definition at_pos {A} (l : list A) (n : nat) : res A := match nth_error l n with Some x => Ok x | None => Raise end.
(* if l: f(l[n]) *)
Definition when {A} (l : list A) (n : nat) (f : A -> revent) : res (list revent) :=
  match l with [] => Ok [] | _ => match at_pos l n with Ok x => Ok [f x] | Raise => Raise end end.
Definition both (a b : res (list revent)) : res (list revent) :=
  match a, b with Ok x, Ok y => Ok (x ++ y) | _, _ => Raise end.

(* rotate.py:111-123: one step, back to 0 at the end of a non-empty list *)
Definition wrap {A} (l : list A) (n : nat) : nat :=
  match l with [] => n | _ => if (length l <=? n)%nat then 0%nat else n end.
(* rotate.py:104-123 __next_step *)
Definition next_step (c : rconf) (s : rstate) : rstate :=
  mkRstate (wrap (ro_msgs c) (S (q_msgs s))) (wrap (ro_rel c) (S (q_rel s))) (wrap (ro_leds c) (S (q_leds s)))
           (wrap (disp_colors c) (S (q_disp s))) (wrap (ro_texts c) (S (q_texts s))).

(* rotate.py:126-136 update_displays, with a label *)
Definition r_draw (c : rconf) (s : rstate) : res (list revent) :=
  both (when (ro_leds c) (q_leds s) RLed) (both (when (ro_texts c) (q_texts s) RText) (when (disp_colors c) (q_disp s) RBack)).

Inductive rop := RPush | RRelease | RDraw.
(* rotate.py:93-102 *)
Definition rstep (c : rconf) (s : rstate) (o : rop) : res (rstate * list revent) :=
  match o with
  | RPush => match when (ro_msgs c) (q_msgs s) RSend with Ok e => Ok (s, e) | Raise => Raise end
  | RRelease =>
      match when (ro_rel c) (q_rel s) RSend with
      | Raise => Raise
      | Ok e => let s' := next_step c s in
                match r_draw c s' with Ok e' => Ok (s', e ++ e') | Raise => Raise end
      end
  | RDraw => match r_draw c s with Ok e => Ok (s, e) | Raise => Raise end
  end.
Fixpoint rrun (c : rconf) (s : rstate) (ops : list rop) : res (rstate * list revent) :=
  match ops with
  | [] => Ok (s, [])
  | o :: ops' => match rstep c s o with
                 | Raise => Raise
                 | Ok (s1, e1) => match rrun c s1 ops' with Raise => Raise | Ok (s2, e2) => Ok (s2, e1 ++ e2) end
                 end
  end.

(* rotate.py:10-56 ROTATING_MESSAGES: with several LEDs the first action sends and drives the display, the others only show
   their colour list. IndexError when led_colors has too few lists. *)
Definition rotating (msgs rel : list (list Z)) (leds : list (list Z)) (disp texts : list Z) (num_leds : nat) : res (list rconf) :=
  if (1 <? num_leds)%nat then
    if (length leds <? num_leds)%nat then Raise
    else Ok (map (fun i => if (i =? 0)%nat then mkRconf msgs rel (nth i leds []) disp texts
                           else mkRconf [] [] (nth i leds []) [] []) (seq 0 num_leds))
  else match leds with l :: _ => Ok [mkRconf msgs rel l disp texts] | [] => Ok [mkRconf msgs rel [] disp texts] end.

(* boomerang.py:308-345 _BOOMERANG_ACTION: bright and dim stand for dim_color(color, led_brightness_1 / 2) *)
Definition boomerang_leds (bright dim : Z) (n : nat) : list (list Z) :=
  if (1 <? n)%nat
  then map (fun i => map (fun j => if (i =? n - j - 1)%nat then bright else dim) (seq 0 n)) (seq 0 n)
  else [[bright; dim]].
Definition boomerang (pc1 pc2 bright dim color text : Z) (n : nat) : res (list rconf) :=
  rotating [[207; pc1]; [207; pc2]] [] (boomerang_leds bright dim n) [color] [text] n.
