(* update_displays of clients/kemper/actions: rig_select.py:231-328, bank_select.py:159-241, bank_up_down.py:177-237, rig_up_down.py:141-204.
   What they do when pressed is in Rig.v. *)
From Verif.Lib Require Import Base.
From Verif.Model Require Import Midi Rig.

(* Texts: empty, "Rig b-r", "Bank b" (numbers as displayed), or what the user configured (a number stands for the text). *)
Inductive ltext := LEmpty | LRig (bank rig : Z) | LBank (bank : Z) | LCustom (t : Z).
(* Colours: white, DEFAULT_LABEL_COLOR, one of the five BANK_COLORS (kemper/__init__.py:30-36), or a configured one *)
Inductive lcolor := CWhite | CDefault | CBank (i : Z) | CCustom (c : Z).
(* BANK_COLORS[b % len(BANK_COLORS)] *)
Definition bank_color (b : Z) : lcolor := CBank (b mod 5).

(* Display parameters. lk_target: display mode TARGET_RIG, else CURRENT_RIG (others raise and are left out); fixed text / colour; callbacks
   for both, called with bank and rig starting from 0. An empty text or colour counts as none. *)
Record looks := mkLooks { lk_target : bool; lk_text : option Z; lk_tcb : option (Z -> Z -> Z); lk_color : option Z; lk_ccb : option (Z -> Z -> Z) }.

(* Label text and colour, if that colour is dimmed; LED colour, and the brighter of the two LED brightness settings? *)
Record shown := mkShown { d_text : ltext; d_back : lcolor; d_dim : bool; d_led : lcolor; d_bright : bool }.

(* ---- rig_select.py ---- *)

(* rig_select.py:321-328 __get_text *)
Definition rs_text (l : looks) (bank rig : Z) : ltext :=
  match lk_tcb l, lk_text l with
  | Some f, _ => LCustom (f bank rig)
  | None, Some t => LCustom t
  | None, None => LRig (bank + 1) (rig + 1)
  end.

(* rig_select.py:293-319 __get_color *)
Definition rs_color (c : rs_cfg) (l : looks) (s : cbst) (sh : shared) (curr_bank curr_rig : Z) (is_current : bool) : lcolor :=
  match lk_color l, lk_ccb l with
  | Some x, _ => CCustom x
  | None, Some f => CCustom (f curr_bank curr_rig)
  | None, None =>
      match (if lk_target l then s_pre sh else None), rs_bank c with
      | Some p, _ => bank_color p
      | None, None => bank_color curr_bank
      | None, Some b =>
          if lk_target l
          then match k_bank_off s with
               | Some bo => if is_current then bank_color (bo - 1) else bank_color (b - 1)
               | None => bank_color (b - 1)
               end
          else bank_color curr_bank
      end
  end.

(* rig_select.py:250-281: the text in TARGET_RIG mode *)
Definition rs_target_text (c : rs_cfg) (l : looks) (s : cbst) (sh : shared) (curr_bank curr_rig : Z) (is_current : bool) : ltext :=
  match s_pre sh with
  | Some p => match rs_rig c with Some r => rs_text l p (r - 1) | None => rs_text l p curr_rig end
  | None =>
      match rs_bank c with
      | Some b =>
          match (if is_current then k_rig_off s else None), k_bank_off s, rs_rig c with
          | Some ro, Some bo, _ => rs_text l (bo - 1) (ro - 1)
          | _, _, Some r => rs_text l (b - 1) (r - 1)
          | _, _, None => rs_text l (b - 1) curr_rig
          end
      | None =>
          match (if is_current then k_rig_off s else None), rs_rig c with
          | Some ro, _ => rs_text l curr_bank (ro - 1)
          | None, Some r => rs_text l curr_bank (r - 1)
          | None, None => rs_text l curr_bank curr_rig
          end
      end
  end.

(* rig_select.py:231-291; the off numbers have already been updated (rs_draw). [blink]: "preselectBlinkState" (None: key missing) *)
Definition rs_show (c : rs_cfg) (l : looks) (v : option Z) (s : cbst) (sh : shared) (blink : option bool) : shown :=
  match v with
  | None => mkShown LEmpty CWhite true CWhite false
  | Some id =>
      let on := rs_on c v in
      let col := rs_color c l s sh (bank_of id) (rig_of id) on in
      let bright := match s_pre sh, blink with Some _, Some b => negb b | _, _ => lk_target l && on end in
      if lk_target l
      then mkShown (rs_target_text c l s sh (bank_of id) (rig_of id) on) col (is_some (s_pre sh) || negb on) col bright
      else mkShown (rs_text l (bank_of id) (rig_of id)) col true col bright
  end.

(* ---- rig_up_down.py ---- *)

(* rig_up_down.py:141-204; dimming is not used, the LEDs always have the same brightness *)
Definition rc_show (up keep : bool) (l : looks) (v : option Z) : shown :=
  match v with
  | None => mkShown LEmpty CDefault false CWhite true
  | Some id =>
      let n := next_rig up keep id in
      let col := match lk_color l, lk_ccb l with
                 | Some x, _ => CCustom x
                 | None, Some f => CCustom (f (bank_of id) (rig_of id))
                 | None, None => if lk_target l then bank_color (bank_of n) else bank_color (bank_of id)
                 end in
      mkShown (if lk_target l then rs_text l (bank_of n) (rig_of n) else rs_text l (bank_of id) (rig_of id)) col false col true
  end.

(* ---- bank_up_down.py ---- *)

(* bank_up_down.py:84-141: dim factor "off", "on" or a number. With "on" the string itself is kept (119: compared with the wrong parameter),
   and dim_color raises for it if there is a label. *)
Inductive dimset := DimOff | DimOn | DimNum.
(* bank_up_down.py:177-220; [own]: the preselection is that of this callback (preselectCallback). None: never returns (see Rig.v);
   Some Raise: exception. Fixed texts are texts as others here, an empty one too. *)
Definition bc_show (fuel : nat) (c : bc_cfg) (l : looks) (label : bool) (dim : dimset) (v : option Z) (sh : shared) (own : bool) (blink : bool) : option (res shown) :=
  let fixed := match lk_text l with Some t => LCustom t | None => LEmpty end in
  let raises := label && match dim with DimOn => true | _ => false end in
  match v with
  | None => Some (if raises then Raise else Ok (mkShown fixed CWhite true CWhite true))
  | Some id =>
      match next_bank fuel c id sh with
      | None => None
      | Some t =>
          let col := match lk_ccb l, lk_color l with
                     | Some f, _ => CCustom (f (bank_of id) (rig_of id))
                     | None, Some x => CCustom x
                     | None, None => bank_color (if lk_target l then t else bank_of id)
                     end in
          let text := match lk_tcb l with Some f => LCustom (f (if lk_target l then t else bank_of id) (rig_of id)) | None => fixed end in
          let bright := if bc_pre c && is_some (s_pre sh) && own then negb blink else true in
          Some (if raises then Raise else Ok (mkShown text col true col bright))
      end
  end.

(* ---- bank_select.py ---- *)

(* bank_select.py:220-227 _get_text *)
Definition bs_text (l : looks) (bank rig : Z) : ltext :=
  match lk_text l, lk_tcb l with
  | Some t, _ => LCustom t
  | None, Some f => LCustom (f bank rig)
  | None, None => LBank (bank + 1)
  end.
(* bank_select.py:230-244 _get_bank_color *)
Definition bs_color (c : bs_cfg) (l : looks) (curr_bank curr_rig : Z) : lcolor :=
  match lk_color l, lk_ccb l with
  | Some x, _ => CCustom x
  | None, Some f => CCustom (f curr_bank curr_rig)
  | None, None =>
      if lk_target l
      then match bs_off c with
           | Some bo => if curr_bank =? bs_bank c - 1 then bank_color (bo - 1) else bank_color (bs_bank c - 1)
           | None => bank_color (bs_bank c - 1)
           end
      else bank_color curr_bank
  end.
(* bank_select.py:168-172 is_current; [blink]: preselectBlinkState, which exists if any callback preselects *)
Definition bs_current (c : bs_cfg) (id : Z) (sh : shared) (blink : bool) : bool :=
  if bs_pre c && opt_is (s_pre sh) (bs_bank c - 1) then blink else bank_of id =? bs_bank c - 1.
(* bank_select.py:188-218 *)
Definition bs_show (c : bs_cfg) (l : looks) (id : Z) (current : bool) : shown :=
  let col := bs_color c l (bank_of id) (rig_of id) in
  if lk_target l
  then mkShown (match (if current then bs_off c else None) with
                | Some bo => bs_text l (bo - 1) (rig_of id)
                | None => bs_text l (bs_bank c - 1) (rig_of id)
                end) col (negb current) col current
  else mkShown (bs_text l (bank_of id) (rig_of id)) col true col false.
(* __current_value and __last_state (None: -1) *)
Record bsst := mkBsst { e_cur : option Z; e_last : option bool }.
Definition bs_new : bsst := mkBsst None None.
Inductive bdop :=
| BDraw (v : option Z) (sh : shared) (blink : bool)       (* update_displays *)
| BRenew.                                                 (* reset (89-91) *)
(* bank_select.py:159-218 *)
Definition bdstep (c : bs_cfg) (l : looks) (s : bsst) (o : bdop) : bsst * list shown :=
  match o with
  | BRenew => (bs_new, [])
  | BDraw None _ _ => (s, [mkShown LEmpty CWhite true CWhite false])
  | BDraw (Some id) sh blink =>
      let cur := bs_current c id sh blink in
      if opt_is (e_cur s) id && match e_last s with Some b => Bool.eqb b cur | None => false end then (s, [])
      else (mkBsst (Some id) (Some cur), [bs_show c l id cur])
  end.
