(* clients/kemper/actions/morph.py: KemperMorphCallback, _get_color; clients/kemper/actions/rig_select_and_morph_state.py:80-109 *)
From Coq Require Import QArith Qround.
From Verif.Lib Require Import Base.
Open Scope Z_scope.

Definition rgb : Type := (Z * Z * Z)%type.

(* int() of a number: truncates towards zero *)
Definition Qtrunc (q : Q) : Z := Z.quot (Qnum q) (Zpos (Qden q)).

(* morph.py:124-126, 75-81. [rnd] is the rounding of the floating point format in use (32 bit, 64 bit or the shortened one of the
   boards): both the division and the product are rounded by it. *)
Definition morph_component (rnd : Q -> Q) (base morph value : Z) : Z :=
  base + Qtrunc (rnd (inject_Z (morph - base) * rnd (inject_Z value / inject_Z 16383)))%Q.

(* morph.py:88-134. Simplification: set_internal_state is always True (as in all actions of the package). *)
Record mconf := mkMconf { mc_base : rgb; mc_morph : rgb; mc_fix : option rgb; mc_suppress : bool }.

(* morph.py:64-81. The shared override exists from initialisation on (142), so [value] is never None here. *)
Definition morph_color (rnd : Q -> Q) (c : mconf) (value : Z) : rgb :=
  match mc_fix c with
  | Some f => f
  | None =>
      let '(r, g, b) := mc_base c in
      let '(r', g', b') := mc_morph c in
      (morph_component rnd r r' value, morph_component rnd g g' value, morph_component rnd b b' value)
  end.

(* One callback: the value it evaluated last (callbacks/__init__.py:228, 235-237; None: none since the last reset), __last_value (morph.py:131),
   ignore_next_value (134), state of its action, colour and state shown last (callbacks/__init__.py:242-244). *)
Record mcb := mkMcb { m_cur : option (option Z); m_lastv : option Z; m_ignore : bool; m_on : bool; m_shown : option (rgb * bool) }.
Definition mcb_init : mcb := mkMcb None None false false None.

(* shared["morphStateOverride"], and the callbacks *)
Record mstate := mkMstate { m_over : Z; m_cbs : nat -> mcb }.
Definition minit : mstate := mkMstate 0 (fun _ => mcb_init).      (* 142 *)

Inductive mop :=
| MUpdate (k : nat) (v : option Z)      (* update_displays of callback k, the value of its mapping being v *)
| MUser (k : nat) (on : bool)           (* the user switches action k; pressing and releasing a MOMENTARY action (28) are True, False *)
| MRigChanged                           (* rig_select.py:169-203, rig_up_down.py:131, bank_select.py:149, bank_up_down.py:157 *)
| MRigToggled                           (* rig_select.py:167: second press with rig_btn_morph *)
| MRigMomentary                         (* rig_select.py:165 *)
| MEnablement (k : nat)                 (* rig_select_and_morph_state.py:103-107: enablement of the display action has changed *)
| MRenew (k : nat).                     (* callbacks/__init__.py:226-229 reset *)

(* client.set(mapping, v) by callback k; colour shown by callback k (callbacks/__init__.py:246-248) *)
Inductive mev := MSet (k : nat) (v : Z) | MShow (k : nat) (c : rgb).

Definition setk (f : nat -> mcb) (k : nat) (x : mcb) : nat -> mcb := fun j => if (j =? k)%nat then x else f j.
Definition optz_eqb (a b : option Z) : bool := match a, b with Some x, Some y => x =? y | None, None => true | _, _ => false end.
Definition rgb_eqb (a b : rgb) : bool := let '(x, y, z) := a in let '(x', y', z') := b in (x =? x') && (y =? y') && (z =? z').

(* morph.py:155-165, callbacks/__init__.py:252-284 in mode NO_STATE_CHANGE; the off value is fixed (94, 287) *)
Definition mevaluate (over : Z) (s : mcb) (v : option Z) : Z * mcb :=
  match v with
  | None => (over, mkMcb (m_cur s) (m_lastv s) (m_ignore s) false (m_shown s))
  | Some z =>
      if optz_eqb (Some z) (m_lastv s) then (over, s)
      else if negb (m_ignore s) then (z, mkMcb (m_cur s) (Some z) (m_ignore s) (m_on s) (m_shown s))
      else (over, mkMcb (m_cur s) (Some z) false (m_on s) (m_shown s))
  end.

(* morph.py:152, rig_select.py:167 *)
Definition toggled (over : Z) : Z := if 0 <? over then 0 else 16383.

Section Step.
Context (rnd : Q -> Q) (conf : nat -> mconf).
Definition mstep (s : mstate) (o : mop) : mstate * list mev :=
  match o with
  | MUpdate k v =>
      let x := m_cbs s k in
      let '(over, x1) :=
        if match m_cur x with Some c => optz_eqb v c | None => false end then (m_over s, x)
        else mevaluate (m_over s) (mkMcb (Some v) (m_lastv x) (m_ignore x) (m_on x) (m_shown x)) v in
      let col := morph_color rnd (conf k) over in
      if match m_shown x1 with Some (c, on) => rgb_eqb col c && Bool.eqb on (m_on x1) | None => false end
      then (mkMstate over (setk (m_cbs s) k x1), [])
      else (mkMstate over (setk (m_cbs s) k (mkMcb (m_cur x1) (m_lastv x1) (m_ignore x1) (m_on x1) (Some (col, m_on x1)))), [MShow k col])
  | MUser k on =>                                   (* 145-152 *)
      let x := m_cbs s k in
      let cbs := setk (m_cbs s) k (mkMcb (m_cur x) (m_lastv x) (m_ignore x) on (m_shown x)) in
      if mc_suppress (conf k) then (mkMstate (m_over s) cbs, [])
      else (mkMstate (if on then toggled (m_over s) else m_over s) cbs, [MSet k (if on then 1 else 0)])
  | MRigChanged => (mkMstate 0 (m_cbs s), [])
  | MRigToggled => (mkMstate (toggled (m_over s)) (m_cbs s), [])
  | MRigMomentary => (mkMstate 16383 (m_cbs s), [])
  | MEnablement k =>
      let x := m_cbs s k in (mkMstate (m_over s) (setk (m_cbs s) k (mkMcb (m_cur x) (m_lastv x) true (m_on x) (m_shown x))), [])
  | MRenew k =>
      let x := m_cbs s k in (mkMstate (m_over s) (setk (m_cbs s) k (mkMcb None (m_lastv x) (m_ignore x) (m_on x) None)), [])
  end.
End Step.
