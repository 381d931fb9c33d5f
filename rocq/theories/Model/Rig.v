(* clients/kemper/actions: rig_up_down.py, bank_up_down.py, rig_select.py, bank_select.py; mappings/select.py, mappings/bank.py.
   Messages handed to the device are control changes; the current rig id is what the two-part response delivered (None: unknown). *)
From Verif.Lib Require Import Base.
From Verif.Model Require Import Midi.

(* kemper/__init__.py:25-28 *)
Definition NUM_RIGS_PER_BANK : Z := 5.
Definition NUM_BANKS : Z := 125.

(* mappings/select.py:8-50, bank.py:7-46: the set messages with the value filled in by client.set (client.py:291-310) *)
Definition rig_select (rig value : Z) : msg := CC (50 + rig) value.
Definition bank_select (bank : Z) : msg := CC 47 bank.
Definition bank_step (up : bool) : msg := CC (if up then 48 else 49) 0.

(* appl.shared (controller.py:73): "preselectedBank" and "morphStateOverride"; None: key missing. The blink state and the owner of
   the preselection ("preselectBlinkState", "preselectCallback") only influence brightness and are left out. *)
Record shared := mkShared { s_pre : option Z; s_morph : option Z }.
Definition no_shared : shared := mkShared None None.

(* int(v / 5) and v % 5 *)
Definition bank_of (v : Z) : Z := Z.quot v NUM_RIGS_PER_BANK.
Definition rig_of (v : Z) : Z := v mod NUM_RIGS_PER_BANK.

(* ---- rig_up_down.py ---- *)

(* rig_up_down.py:206-228 __get_next_rig *)
Definition next_rig (up keep : bool) (id : Z) : Z :=
  if up then
    if keep then (if rig_of id <? NUM_RIGS_PER_BANK - 1 then id + 1 else id)
    else (if id <? NUM_RIGS_PER_BANK * NUM_BANKS - 1 then id + 1 else 0)
  else
    if keep then (if 0 <? rig_of id then id - 1 else id)
    else (if 0 <? id then id - 1 else NUM_RIGS_PER_BANK * NUM_BANKS - 1).

(* rig_up_down.py:112-131 push; [sent]: rig of __sent_rig_mapping *)
Definition rig_change_push (up keep : bool) (v : option Z) (sent : option Z) (sh : shared) : option Z * shared * list msg :=
  match v with
  | None => (sent, sh, [])
  | Some id =>
      let n := next_rig up keep id in
      if n =? id then (sent, sh, [])
      else (Some (rig_of n), mkShared (s_pre sh) (Some 0),
            (if negb (bank_of n =? bank_of id) then [bank_select (bank_of n)] else []) ++ [rig_select (rig_of n) 1])
  end.

(* rig_up_down.py:133-139, rig_select.py:205-208, bank_select.py:151-157 release *)
Definition release_sent (sent : option Z) : option Z * list msg :=
  match sent with None => (None, []) | Some r => (None, [rig_select r 0]) end.

(* ---- bank_up_down.py ---- *)

(* bank_up_down.py:232-233: while value < 0: value += n. None: the loop did not end within the fuel. *)
Fixpoint add_while (fuel : nat) (n value : Z) : option Z :=
  if value <? 0 then match fuel with O => None | S f => add_while f n (value + n) end else Some value.
(* bank_up_down.py:234-235: while value >= n: value -= n *)
Fixpoint sub_while (fuel : nat) (n value : Z) : option Z :=
  if n <=? value then match fuel with O => None | S f => sub_while f n (value - n) end else Some value.

(* bank_up_down.py:29-30, 84-114: offset, max_bank, preselect *)
Record bc_cfg := mkBcCfg { bc_up : bool; bc_max : option Z; bc_pre : bool }.
Definition bc_num (c : bc_cfg) : Z := match bc_max c with None => NUM_BANKS | Some m => m end.

(* bank_up_down.py:222-237 __get_next_bank, called with the current rig id (push, 148) *)
Definition next_bank (fuel : nat) (c : bc_cfg) (id : Z) (sh : shared) : option Z :=
  let bank := match s_pre sh with Some b => b | None => bank_of id end in
  match add_while fuel (bc_num c) (bank + if bc_up c then 1 else -1) with
  | None => None
  | Some v => sub_while fuel (bc_num c) v
  end.

(* bank_up_down.py:143-157 push; None: never returns *)
Definition bank_change_push (fuel : nat) (c : bc_cfg) (v : option Z) (sh : shared) : option (shared * list msg) :=
  if bc_pre c then
    match v with
    | None => Some (sh, [])
    | Some id => match next_bank fuel c id sh with
                 | None => None
                 | Some b => Some (mkShared (Some b) (Some 0), [bank_select b])
                 end
    end
  else Some (mkShared (s_pre sh) (Some 0), [bank_step (bc_up c)]).

(* ---- rig_select.py ---- *)

(* rig_select.py:58-104. rig / bank numbers start at 1; off numbers: None, a number or "auto". *)
Inductive offnum := ONone | ONum (n : Z) | OAuto.
Record rs_cfg := mkRsCfg { rs_rig : option Z; rs_rig_off : offnum; rs_bank : option Z; rs_bank_off : offnum;
                           rs_exclude : list Z; rs_btn_morph : bool; rs_momentary : bool }.

(* rig_select.py:75-76: exception in the constructor *)
Definition rs_valid (c : rs_cfg) : bool :=
  negb (match rs_rig_off c, rs_bank c, rs_bank_off c with
        | ONone, _, _ => false | _, None, _ => false | _, Some _, ONone => true | _, _, _ => false end).

(* State of one callback. k_sent: __sent_rig_mapping; k_cur: __current_value (None: -1); k_rig_off, k_bank_off *)
Record cbst := mkCbst { k_sent : option Z; k_cur : option Z; k_rig_off : option Z; k_bank_off : option Z }.
Definition off_start (o : offnum) : option Z := match o with ONone => None | ONum n => Some n | OAuto => Some 1 end.   (* 84, 86 *)
Definition rs_new (c : rs_cfg) : cbst := mkCbst None None (off_start (rs_rig_off c)) (off_start (rs_bank_off c)).
Definition is_auto (o : offnum) : bool := match o with OAuto => true | _ => false end.

Definition is_some {A} (o : option A) : bool := match o with Some _ => true | None => false end.
Definition opt_is (o : option Z) (z : Z) : bool := match o with Some x => x =? z | None => false end.

(* rig_select.py:106-123 state *)
Definition rs_on (c : rs_cfg) (v : option Z) : bool :=
  match v, rs_rig c with
  | Some id, Some rig =>
      (match rs_bank c with Some b => b - 1 =? bank_of id | None => true end) && (rig - 1 =? rig_of id)
  | _, _ => false
  end.

(* rig_select.py:160, 201 (not bank: None or 0) *)
Definition same_rig (c : rs_cfg) (id : Z) : bool :=
  opt_is (rs_rig c) (rig_of id + 1) &&
  (match rs_bank c with None => true | Some b => (b =? 0) || (b =? bank_of id + 1) end).
Definition toggles_morph (c : rs_cfg) (s : cbst) : bool := rs_btn_morph c && negb (is_some (k_rig_off s)) && negb (is_some (k_bank_off s)).

(* rig_select.py:157-173: value of morphStateOverride after a push without preselection *)
Definition morph_after (c : rs_cfg) (s : cbst) (v : option Z) (m : option Z) : Z :=
  match v with
  | None => 0
  | Some id =>
      if toggles_morph c s && same_rig c id then
        if rs_momentary c then 16383
        else if 0 <? (match m with Some x => x | None => 0 end) then 0 else 16383
      else 0
  end.

(* rig_select.py:139-191 push *)
Definition rs_push (c : rs_cfg) (v : option Z) (s : cbst) (sh : shared) : cbst * shared * list msg :=
  let on := rs_on c v in
  let pre := is_some (s_pre sh) in
  let bank_msgs :=
    if pre then [] else
    match rs_bank c with
    | None => []
    | Some b => match k_bank_off s with
                | Some bo => if on then [bank_select (bo - 1)] else [bank_select (b - 1)]
                | None => [bank_select (b - 1)]
                end
    end in
  let morph := if pre then 0 else morph_after c s v (s_morph sh) in           (* 158-173, 190 *)
  let sent :=
    match (if on && negb pre then k_rig_off s else None), rs_rig c, v with
    | Some ro, _, _ => Some (ro - 1)
    | None, Some r, _ => Some (r - 1)
    | None, None, Some id => Some (rig_of id)
    | None, None, None => None
    end in
  (mkCbst sent (k_cur s) (k_rig_off s) (k_bank_off s), mkShared None (Some morph),
   bank_msgs ++ match sent with Some r => [rig_select r 1] | None => [] end).

(* rig_select.py:194-208 release *)
Definition rs_release (c : rs_cfg) (v : option Z) (s : cbst) (sh : shared) : cbst * shared * list msg :=
  let morph := match v with
               | Some id => if toggles_morph c s && same_rig c id && rs_momentary c then Some 0 else s_morph sh
               | None => s_morph sh
               end in
  let '(sent, m) := release_sent (k_sent s) in
  (mkCbst sent (k_cur s) (k_rig_off s) (k_bank_off s), mkShared (s_pre sh) morph, m).

(* rig_select.py:231-243: the off numbers remembered while updating the displays *)
Definition rs_draw (c : rs_cfg) (v : option Z) (s : cbst) : cbst :=
  match v with
  | None => s
  | Some id =>
      if opt_is (k_cur s) id then s
      else
        mkCbst (k_sent s) (Some id)
          (match rs_rig c with
           | Some r => if negb (existsb (Z.eqb (rig_of id + 1)) (rs_exclude c)) && is_auto (rs_rig_off c) && negb (rig_of id =? r - 1)
                       then Some (rig_of id + 1) else k_rig_off s
           | None => k_rig_off s
           end)
          (match rs_bank c with
           | Some b => if is_auto (rs_bank_off c) && negb (bank_of id =? b - 1) then Some (bank_of id + 1) else k_bank_off s
           | None => k_bank_off s
           end)
  end.

(* ---- bank_select.py ---- *)

(* bank_select.py:47-77; off bank ignored in preselect mode (64) *)
Record bs_cfg := mkBsCfg { bs_bank : Z; bs_bank_off : option Z; bs_pre : bool }.
Definition bs_off (c : bs_cfg) : option Z := if bs_pre c then None else bs_bank_off c.

(* bank_select.py:113-149 push. Redrawing the other actions (123-126) is left out. *)
Definition bs_push (c : bs_cfg) (v : option Z) (sent : option Z) (sh : shared) : option Z * shared * list msg :=
  match v with
  | None => (sent, sh, [])
  | Some id =>
      let pre := if bs_pre c && (is_some (s_pre sh) || negb (bank_of id =? bs_bank c - 1)) then Some (bs_bank c - 1) else s_pre sh in
      let bank := match bs_off c with
                  | Some bo => if negb (bank_of id =? bs_bank c - 1) then bs_bank c - 1 else bo - 1
                  | None => bs_bank c - 1
                  end in
      if bs_pre c then (sent, mkShared pre (s_morph sh), [bank_select bank])
      else (Some (rig_of id), mkShared None (Some 0), [bank_select bank; rig_select (rig_of id) 1])
  end.

(* ---- Several switches together ---- *)

Inductive cb := RigChange (up keep : bool) | BankChange (c : bc_cfg) | RigSelect (c : rs_cfg) | BankSelect (c : bs_cfg).

(* The current rig id as far as known, the shared data and the state of each callback *)
Record world := mkWorld { w_id : option Z; w_sh : shared; w_st : nat -> cbst }.
Definition cb_new (b : cb) : cbst := match b with RigSelect c => rs_new c | _ => mkCbst None None None None end.
Definition new_world (cfg : nat -> cb) : world := mkWorld None no_shared (fun k => cb_new (cfg k)).
Definition put_st (f : nat -> cbst) (k : nat) (s : cbst) : nat -> cbst := fun j => if (j =? k)%nat then s else f j.
Definition put_sent (s : cbst) (x : option Z) : cbst := mkCbst x (k_cur s) (k_rig_off s) (k_bank_off s).

Inductive wop := Press (k : nat) | Let_go (k : nat) | Draw (k : nat) | Report (id : option Z).

(* events: which switch sent what. None: the call never returns (bank_up_down.py:232-235). *)
Definition wstep (cfg : nat -> cb) (fuel : nat) (w : world) (o : wop) : option (world * list (nat * msg)) :=
  match o with
  | Report id => Some (mkWorld id (w_sh w) (w_st w), [])
  | Draw k => match cfg k with
              | RigSelect c => Some (mkWorld (w_id w) (w_sh w) (put_st (w_st w) k (rs_draw c (w_id w) (w_st w k))), [])
              | _ => Some (w, [])
              end
  | Press k =>
      let s := w_st w k in
      match cfg k with
      | RigChange up keep => let '(x, sh, m) := rig_change_push up keep (w_id w) (k_sent s) (w_sh w) in
                             Some (mkWorld (w_id w) sh (put_st (w_st w) k (put_sent s x)), map (pair k) m)
      | BankChange c => match bank_change_push fuel c (w_id w) (w_sh w) with
                        | None => None
                        | Some (sh, m) => Some (mkWorld (w_id w) sh (w_st w), map (pair k) m)
                        end
      | RigSelect c => let '(s', sh, m) := rs_push c (w_id w) s (w_sh w) in
                       Some (mkWorld (w_id w) sh (put_st (w_st w) k s'), map (pair k) m)
      | BankSelect c => let '(x, sh, m) := bs_push c (w_id w) (k_sent s) (w_sh w) in
                        Some (mkWorld (w_id w) sh (put_st (w_st w) k (put_sent s x)), map (pair k) m)
      end
  | Let_go k =>
      let s := w_st w k in
      match cfg k with
      | BankChange _ => Some (w, [])                                                             (* bank_up_down.py:159-160 *)
      | RigSelect c => let '(s', sh, m) := rs_release c (w_id w) s (w_sh w) in
                       Some (mkWorld (w_id w) sh (put_st (w_st w) k s'), map (pair k) m)
      | _ => let '(x, m) := release_sent (k_sent s) in
             Some (mkWorld (w_id w) (w_sh w) (put_st (w_st w) k (put_sent s x)), map (pair k) m)
      end
  end.
Fixpoint wrun (cfg : nat -> cb) (fuel : nat) (w : world) (ops : list wop) : option (world * list (nat * msg)) :=
  match ops with
  | [] => Some (w, [])
  | o :: ops' => match wstep cfg fuel w o with
                 | None => None
                 | Some (w1, e1) => match wrun cfg fuel w1 ops' with None => None | Some (w2, e2) => Some (w2, e1 ++ e2) end
                 end
  end.
