(* LED handling: controller/actions/__init__.py:69-118, 154-190 and controller/inputs.py:165-236 *)
From Coq Require Import QArith.
From Verif.Lib Require Import Base.
From Verif.Model Require Import Midi.
Open Scope Z_scope.

(* What the LED code asks about an action: identity, uses_switch_leds (actions/__init__.py:37) and enabled (66). *)
Record led_action := mkLedAction { la_id : Z; la_uses : bool; la_enabled : bool }.

(* actions/__init__.py:159 *)
Definition led_users (l : list led_action) : list led_action := filter (fun a => la_uses a && la_enabled a) l.

(* actions/__init__.py:164-169: position by identity; None stands for the exception *)
Fixpoint index_among (a : led_action) (l : list led_action) : option nat :=
  match l with
  | [] => None
  | b :: l' => if la_id b =? la_id a then Some 0%nat else option_map S (index_among a l')
  end.

(* actions/__init__.py:155-190 __get_led_segments. [n] is the number of pixels of the switch. *)
Definition led_segments (n : nat) (l : list led_action) (a : led_action) : option (list nat) :=
  if (n =? 0)%nat || negb (la_uses a) || negb (la_enabled a) then Some []
  else
    let users := led_users l in
    match index_among a users with
    | None => None
    | Some index =>
        if (length users =? 1)%nat then Some (seq 0 n)                               (* 174-176 *)
        else if (length users <? n)%nat then                                         (* 178-185 *)
          let first := (n - length users + 1)%nat in
          if (index =? 0)%nat then Some (seq 0 first) else Some [(first + index - 1)%nat]
        else if (index <? n)%nat then Some [index]                                   (* 187-188 *)
        else Some []
    end.

(* ---- Colours and brightness ---- *)

Definition rgb := (Z * Z * Z)%type.

(* inputs.py:28, 38-39: pixels of a switch, stored colours and brightness values. Brightness values are exact
   rationals; the single precision rounding of array('f') is not modelled. *)
Record switch_leds := mkLeds { px : list Z; cols : list rgb; brs : list Q }.

(* The LED strip: colour of each pixel (appl.led_driver.leds). Assumption: every pixel of a switch exists. *)
Definition strip := Z -> rgb.

(* inputs.py:231-233 int(c * b): truncation towards zero *)
Definition scale (c : Z) (b : Q) : Z := Z.quot (c * Qnum b) (Zpos (Qden b)).
Definition scale_rgb (c : rgb) (b : Q) : rgb :=
  let '(r, g, bl) := c in (scale r b, scale g b, scale bl b).

Fixpoint put {A} (n : nat) (x : A) (l : list A) : list A :=
  match n, l with
  | _, [] => []
  | O, _ :: l' => x :: l'
  | S n', y :: l' => y :: put n' x l'
  end.
Definition put_all {A} (segs : list nat) (x : A) (l : list A) : list A :=
  fold_left (fun acc i => put i x acc) segs l.

Definition write (d : strip) (p : Z) (c : rgb) : strip := fun q => if q =? p then c else d q.

(* inputs.py:228-234: the loop over the pixels *)
Fixpoint write_all (d : strip) (ps : list Z) (cs : list rgb) (bs : list Q) : strip :=
  match ps, cs, bs with
  | p :: ps', c :: cs', b :: bs' => write_all (write d p (scale_rgb c b)) ps' cs' bs'
  | _, _, _ => d
  end.

(* inputs.py:172-180 colors setter (argument is a list) *)
Definition set_colors (s : switch_leds) (cs : list rgb) : res switch_leds :=
  if negb (length cs =? length (px s))%nat then Raise else Ok (mkLeds (px s) cs (brs s)).

(* inputs.py:220-236 brightnesses setter *)
Definition set_brightnesses (s : switch_leds) (d : strip) (bs : list Q) : res (switch_leds * strip) :=
  match px s with
  | [] => Ok (s, d)
  | _ => if negb (length bs =? length (px s))%nat then Raise
         else Ok (mkLeds (px s) (cols s) bs, write_all d (px s) (cols s) bs)
  end.

(* actions/__init__.py:77: a colour, or a tuple of colours *)
Inductive color_arg := OneColor (c : rgb) | ManyColors (cs : list rgb).

Fixpoint put_each {A} (segs : list nat) (xs : list A) (l : list A) : list A :=
  match segs, xs with
  | i :: segs', x :: xs' => put_each segs' xs' (put i x l)
  | _, _ => l
  end.

(* actions/__init__.py:77-98 switch_color setter for given segments. An empty tuple raises at color[0] (84). *)
Definition switch_color (s : switch_leds) (segs : list nat) (c : color_arg) : res switch_leds :=
  match segs with
  | [] => Ok s
  | _ =>
      match c with
      | OneColor c => set_colors s (put_all segs c (cols s))
      | ManyColors [] => Raise
      | ManyColors (c0 :: cs) =>
          if (length segs =? length (c0 :: cs))%nat
          then set_colors s (put_each segs (c0 :: cs) (cols s))
          else set_colors s (put_all segs (nth (length (c0 :: cs) / 2) (c0 :: cs) c0) (cols s))
      end
  end.

(* actions/__init__.py:109-118 switch_brightness setter *)
Definition switch_brightness (s : switch_leds) (d : strip) (segs : list nat) (b : Q) : res (switch_leds * strip) :=
  match segs with
  | [] => Ok (s, d)
  | _ => set_brightnesses s d (put_all segs b (brs s))
  end.
