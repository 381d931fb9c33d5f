(* clients/kemper/actions/effect_button.py EFFECT_BUTTON: a PushButtonAction in LATCH mode with _KemperEffectButtonCallback. *)
From Verif.Lib Require Import Base.
From Verif.Model Require Import BinaryCb.

(* effect_button.py:36-42, 60-68: NO_STATE_CHANGE, values 1 and 0; a text is always given for buttons 1 to 4 (24-32). The mapping has no
   response (mappings/effects.py:15-22), so bc_live is use_internal_state and the value of the mapping is always None. *)
Definition ebcfg (internal : bool) : bcfg := mkBcfg NO_STATE_CHANGE 1 (SOne 1) (OOne (Some 0)) false internal true false.

(* x_enabled: what the enable callback says; x_last: __last_enabled of the action (actions/__init__.py:52, None: -1) *)
Record xstate := mkX { x_b : bstate; x_enabled : bool; x_last : option bool }.
Definition x_init (internal : bool) : xstate := mkX (binit (ebcfg internal)) true None.

(* What the callback does, and if its action is enabled then. A disabled action has no LEDs (actions/__init__.py:156-158), so EShow only
   concerns its label. *)
Inductive xev := XE (enabled : bool) (e : bevent).

(* callbacks/__init__.py:232-248, the label and the LEDs; [color] is constant *)
Definition x_draw (internal : bool) (s : xstate) : xstate * list xev :=
  let '(b, ev) := update_displays (ebcfg internal) (x_b s) None 0 in (mkX b (x_enabled s) (x_last s), map (XE (x_enabled s)) ev).
(* actions/__init__.py:137-144 Action.update_displays, 15-21 the callback listener *)
Definition x_action_draw (internal : bool) (s : xstate) : xstate * list xev :=
  if x_enabled s then x_draw internal s else (s, []).
Definition x_do (internal : bool) (s : xstate) (o : bop) : xstate * list xev :=
  let '(b, ev) := bstep (ebcfg internal) (x_b s) o in (mkX b (x_enabled s) (x_last s), map (XE (x_enabled s)) ev).
Definition seq (s : xstate) (f g : xstate -> xstate * list xev) : xstate * list xev :=
  let '(s1, e1) := f s in let '(s2, e2) := g s1 in (s2, e1 ++ e2).

Inductive xop :=
| XPush                   (* the switch is pressed *)
| XEnable (b : bool)      (* the enable callback changes its mind (e.g. another page) *)
| XTick                   (* Action.update *)
| XRig                    (* the device reports its rig *)
| XReset.                 (* PushButtonAction.reset *)
Definition xstep (internal : bool) (s : xstate) (o : xop) : xstate * list xev :=
  match o with
  (* Switch.process passes disabled actions by (controller/switches.py); actions/__init__.py:243-252, 268-271: LATCH *)
  | XPush => if x_enabled s then seq s (fun s => x_do internal s (User (negb (b_on (x_b s))))) (x_action_draw internal) else (s, [])
  | XEnable b => (mkX (x_b s) b (x_last s), [])
  (* actions/__init__.py:115-122 *)
  | XTick => if match x_last s with Some l => Bool.eqb l (x_enabled s) | None => false end then (s, [])
             else seq (mkX (x_b s) (x_enabled s) (Some (x_enabled s))) (fun s => x_do internal s Renew) (x_action_draw internal)
  (* effect_button.py:70-77 *)
  | XRig => seq s (x_action_draw internal)
              (fun s => if b_on (x_b s) then seq s (fun s => x_do internal s (Force false)) (x_draw internal) else (s, []))
  (* actions/__init__.py:311-314 *)
  | XReset => seq s (fun s => x_do internal s Renew) (fun s => seq s (fun s => x_do internal s (Force false)) (x_action_draw internal))
  end.
