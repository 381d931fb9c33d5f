(* C42 - C45, C60, C61: the device as documented, and notions over histories. *)
From Verif.Lib Require Import Base.
From Verif.Model Require Import Midi Rig.

(* The device: current rig id (5 rigs per bank) and a bank waiting for the next rig selection. *)
Record device := mkDevice { d_id : Z; d_pending : option Z }.
(* CC 47 b: bank b waits for the next rig selection. CC 50+r with value 1: rig r of the waiting bank, else of the current bank.
   Everything else (in particular the releases, value 0) changes nothing. *)
Definition react (d : device) (m : msg) : device :=
  match m with
  | CC 47 b => mkDevice (d_id d) (Some b)
  | CC c 1 => if (50 <=? c) && (c <=? 54)
              then mkDevice (5 * (match d_pending d with Some b => b | None => d_id d / 5 end) + (c - 50)) None
              else d
  | _ => d
  end.
Definition react_all (d : device) (ms : list msg) : device := fold_left react ms d.
(* Rig ids start with bank 0, rig 0 *)
Definition rig_id (bank rig : Z) : Z := 5 * bank + rig.
Definition valid_id (id : Z) : Prop := 0 <= id < 625.

(* The neighbouring rig *)
Definition neighbour (up keep : bool) (id : Z) : Z :=
  if keep then
    if up then (if id mod 5 =? 4 then id else id + 1) else (if id mod 5 =? 0 then id else id - 1)
  else (if up then id + 1 else id - 1) mod 625.

(* Rig messages: selections (value 1) and releases (value 0) *)
Definition selects (ms : list msg) : list Z := flat_map (fun m => match m with CC c 1 => if 50 <=? c then [c - 50] else [] | _ => [] end) ms.
Definition is_bank (m : msg) : bool := match m with CC 47 _ => true | _ => false end.
Definition is_rig (m : msg) : bool := match m with CC c _ => 50 <=? c | _ => false end.

(* What switch k sent *)
Definition sent_by (k : nat) (ev : list (nat * msg)) : list msg := map snd (filter (fun e => (fst e =? k)%nat) ev).

(* In a history, switch k is pressed and let go alternately, beginning with a press; [down]: it is held now *)
Fixpoint alternates (k : nat) (down : bool) (ops : list wop) : bool :=
  match ops with
  | [] => negb down
  | Press j :: r => if (j =? k)%nat then negb down && alternates k true r else alternates k down r
  | Let_go j :: r => if (j =? k)%nat then down && alternates k false r else alternates k down r
  | _ :: r => alternates k down r
  end.

(* A history from the start *)
Definition whistory (cfg : nat -> cb) (fuel : nat) (ops : list wop) (w : world) (ev : list (nat * msg)) : Prop :=
  wrun cfg fuel (new_world cfg) ops = Some (w, ev).

(* One rig selection followed by its release, for each of the given rigs *)
Definition pairs (rs : list Z) : list msg := flat_map (fun r => [CC (50 + r) 1; CC (50 + r) 0]) rs.

(* ---- bank up / down ---- *)

(* The bank the next press starts from: the one shown as preselected, else the current one *)
Definition base_bank (id : Z) (sh : shared) : Z := match s_pre sh with Some b => b | None => id / 5 end.
(* The same switch pressed k times *)
Fixpoint presses (fuel : nat) (c : bc_cfg) (v : option Z) (sh : shared) (k : nat) : option (shared * list msg) :=
  match k with
  | O => Some (sh, [])
  | S k' => match bank_change_push fuel c v sh with
            | None => None
            | Some (sh1, m1) => match presses fuel c v sh1 k' with None => None | Some (sh2, m2) => Some (sh2, m1 ++ m2) end
            end
  end.

(* ---- rig selection ---- *)

Definition good_off (o : offnum) (n : Z) : Prop := match o with ONum x => 1 <= x <= n | _ => True end.
Definition good_opt (o : option Z) (n : Z) : Prop := match o with Some x => 1 <= x <= n | _ => True end.
(* rig numbers 1-5, bank numbers 1-125 *)
Definition good_rs (c : rs_cfg) : Prop :=
  good_opt (rs_rig c) 5 /\ good_off (rs_rig_off c) 5 /\ good_opt (rs_bank c) 125 /\ good_off (rs_bank_off c) 125.

(* the rig is the configured one (in the configured bank, if any) *)
Definition already_there (c : rs_cfg) (id : Z) : bool :=
  match rs_rig c with
  | Some r => (id mod 5 =? r - 1) && (match rs_bank c with Some b => id / 5 =? b - 1 | None => true end)
  | None => false
  end.

Definition number (o : option Z) (default : Z) : Z := match o with Some n => n - 1 | None => default end.

(* The rig addressed by a press. ro, bo: off numbers; pre: preselected bank; id: current rig *)
Definition target (c : rs_cfg) (ro bo pre : option Z) (id : Z) : Z :=
  match pre with
  | Some p => rig_id p (number (rs_rig c) (id mod 5))
  | None =>
      if already_there c id
      then rig_id (match rs_bank c with Some _ => number bo (id / 5) | None => id / 5 end) (number ro (id mod 5))
      else rig_id (number (rs_bank c) (id / 5)) (number (rs_rig c) (id mod 5))
  end.

(* The rigs which were current when switch k was redrawn *)
Fixpoint drawn (k : nat) (cur : option Z) (ops : list wop) : list Z :=
  match ops with
  | [] => []
  | Report id :: r => drawn k id r
  | Draw j :: r => (if (j =? k)%nat then match cur with Some id => [id] | None => [] end else []) ++ drawn k cur r
  | _ :: r => drawn k cur r
  end.
(* off numbers: fixed, or the number of the last other rig / bank seen (1 before any was seen) *)
Definition off_rig (c : rs_cfg) (seen : list Z) : option Z :=
  match rs_rig_off c, rs_rig c with
  | ONone, _ => None
  | ONum n, _ => Some n
  | OAuto, None => Some 1
  | OAuto, Some r => Some (last (filter (fun n => negb (n =? r) && negb (existsb (Z.eqb n) (rs_exclude c))) (map (fun id => id mod 5 + 1) seen)) 1)
  end.
Definition off_bank (c : rs_cfg) (seen : list Z) : option Z :=
  match rs_bank_off c, rs_bank c with
  | ONone, _ => None
  | ONum n, _ => Some n
  | OAuto, None => Some 1
  | OAuto, Some b => Some (last (filter (fun n => negb (n =? b)) (map (fun id => id / 5 + 1) seen)) 1)
  end.
Definition reports_valid (ops : list wop) : Prop := forall id, In (Report (Some id)) ops -> valid_id id.

(* ---- several switches ---- *)

Definition good_cb (b : cb) : Prop := match b with RigSelect c => good_rs c | _ => True end.
(* Switches which take part in bank preselection correctly: not rig up/down, and bank up/down only with preselection and at least one bank *)
Definition preselects (b : cb) : Prop :=
  match b with RigSelect c => good_rs c | BankSelect _ => True | BankChange c => bc_pre c = true | RigChange _ _ => False end.
