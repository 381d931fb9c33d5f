(* controller/preview.py ValuePreview, and the parts of ui/elements.py DisplayLabel it uses (66-72, 143-187). *)
From Verif.Lib Require Import Base.
From Verif.Model Require Import Period.

(* Texts and colours are numbers; text 0 is the empty string (falsy). *)
(* DisplayLabel. l_over: override_text (None or ""); l_text: text displayed; l_cb: what the label's callback would write (None: the
   label has no callback); l_color: text colour displayed; l_init: text colour of the layout; l_auto: the colour determined from the
   background if none is set (elements.py:216-227). Low memory warning and text wrapping are left out. *)
Record plabel := mkPlabel { l_over : option Z; l_text : Z; l_cb : option Z; l_color : Z; l_init : option Z; l_auto : Z }.

(* elements.py:68-72 update_label *)
Definition update_label (l : plabel) : plabel :=
  match l_over l with
  | Some t => if t =? 0 then match l_cb l with Some c => mkPlabel (l_over l) c (l_cb l) (l_color l) (l_init l) (l_auto l) | None => l end
              else mkPlabel (l_over l) t (l_cb l) (l_color l) (l_init l) (l_auto l)
  | None => match l_cb l with Some c => mkPlabel (l_over l) c (l_cb l) (l_color l) (l_init l) (l_auto l) | None => l end
  end.
Definition set_over (l : plabel) (t : option Z) : plabel := update_label (mkPlabel t (l_text l) (l_cb l) (l_color l) (l_init l) (l_auto l)).
(* elements.py:162-174 text_color setter *)
Definition set_color (l : plabel) (c : option Z) : plabel :=
  mkPlabel (l_over l) (l_text l) (l_cb l) (match c with Some x => x | None => l_auto l end) (l_init l) (l_auto l).
(* elements.py:139-156 back_color setter, changing the background; [auto] is the automatic text colour for the new one *)
Definition set_background (l : plabel) (auto : Z) : plabel :=
  set_color (mkPlabel (l_over l) (l_text l) (l_cb l) (l_color l) (l_init l) auto) (l_init l).

(* preview.py:20-40. orig: __orig_color, the layout colour when the handler was obtained (at configuration time); clients: users which
   registered themselves. *)
Record preview := mkPreview { v_lbl : plabel; v_period : option period; v_blink : option period; v_stay : bool;
                              v_bstate : bool; v_bcolor : Z; v_orig : option Z; v_clients : list nat }.
Definition new_preview (l : plabel) : preview := mkPreview l None None false false 0 (l_init l) [].

(* preview.py:122-138 reset *)
Definition pv_reset (s : preview) (immediately : bool) (now : Z) : preview :=
  let l := set_color (v_lbl s) (v_orig s) in
  match v_period s with
  | Some p => if immediately then mkPreview (set_over l None) None None false (v_bstate s) (v_bcolor s) (v_orig s) (v_clients s)
              else mkPreview l (Some (p_reset p now)) None false (v_bstate s) (v_bcolor s) (v_orig s) (v_clients s)
  | None => mkPreview (set_over l None) None None false (v_bstate s) (v_bcolor s) (v_orig s) (v_clients s)
  end.

(* preview.py:52-57: cancel() of the others; the only class with cancel() is EncoderAction (EncoderAction.py:199-205), which resets
   the preview immediately. Its own state is modelled in Encoder.v. *)
Definition cancel_others (s : preview) (client : option nat) (now : Z) : preview * list nat :=
  fold_left (fun '(st, ev) c => if match client with Some x => (c =? x)%nat | None => false end then (st, ev) else (pv_reset st true now, ev ++ [c]))
    (v_clients s) (s, []).

(* preview.py:43-86 preview. timeout / blink 0 stands for None or 0. The event list: the clients cancelled. *)
Definition pv_preview (s : preview) (text : Z) (client : option nat) (stay : bool) (timeout blink bcolor : Z) (now : Z) : preview * list nat :=
  let '(s1, ev) := cancel_others s client now in
  (mkPreview (set_over (v_lbl s1) (Some text))
     (if timeout =? 0 then None
      else Some (p_reset (match v_period s1 with None => new_period timeout | Some p => mkPeriod timeout (last_reset p) end) now))
     (if blink =? 0 then None
      else Some (match v_blink s1 with None => new_period blink | Some p => mkPeriod blink (last_reset p) end))
     stay (v_bstate s1) bcolor (v_orig s1)
     (match client with
      | Some c => if existsb (Nat.eqb c) (v_clients s1) then v_clients s1 else v_clients s1 ++ [c]
      | None => v_clients s1
      end), ev).

(* preview.py:141-157 update *)
Definition pv_update (s : preview) (now : Z) : preview :=
  match l_over (v_lbl s) with
  | None => s
  | Some t =>
      if t =? 0 then s else
      let '(lbl, per) :=
        match v_period s with
        | Some p => if v_stay s then (v_lbl s, v_period s)
                    else let '(x, p') := p_exceeded p now in (if x then set_over (v_lbl s) None else v_lbl s, Some p')
        | None => (v_lbl s, None)
        end in
      match v_blink s with
      | Some b =>
          let '(x, b') := p_exceeded b now in
          if x then mkPreview (set_color lbl (if negb (v_bstate s) then Some (v_bcolor s) else v_orig s)) per (Some b') (v_stay s)
                      (negb (v_bstate s)) (v_bcolor s) (v_orig s) (v_clients s)
          else mkPreview lbl per (Some b') (v_stay s) (v_bstate s) (v_bcolor s) (v_orig s) (v_clients s)
      | None => mkPreview lbl per None (v_stay s) (v_bstate s) (v_bcolor s) (v_orig s) (v_clients s)
      end
  end.

Definition put_lbl (s : preview) (l : plabel) : preview :=
  mkPreview l (v_period s) (v_blink s) (v_stay s) (v_bstate s) (v_bcolor s) (v_orig s) (v_clients s).

(* PRefresh t: the parameter shown by the label's callback changes to text t, which calls update_label (elements.py:85-93).
   PBack: the background changes. *)
Inductive pop :=
| PPreview (text : Z) (client : option nat) (stay : bool) (timeout blink bcolor now : Z)
| PReset (immediately : bool) (now : Z)
| PUpdate (now : Z)
| PRefresh (t : Z)
| PBack (auto : Z).
Inductive pev := PCancel (c : nat).
Definition pvstep (s : preview) (o : pop) : preview * list pev :=
  match o with
  | PPreview t c st to bl bc now => let '(s', ev) := pv_preview s t c st to bl bc now in (s', map PCancel ev)
  | PReset i now => (pv_reset s i now, [])
  | PUpdate now => (pv_update s now, [])
  | PRefresh t => (put_lbl s (let l := v_lbl s in match l_cb l with Some _ => update_label (mkPlabel (l_over l) (l_text l) (Some t) (l_color l) (l_init l) (l_auto l)) | None => l end), [])
  | PBack a => (put_lbl s (set_background (v_lbl s) a), [])
  end.
Fixpoint pvrun (s : preview) (ops : list pop) : preview * list pev :=
  match ops with [] => (s, []) | o :: r => let '(s1, e1) := pvstep s o in let '(s2, e2) := pvrun s1 r in (s2, e1 ++ e2) end.
