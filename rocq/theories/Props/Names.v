(* C113: names of actions. *)
From Coq Require Import String Ascii.
From Verif.Lib Require Import Base.
From Verif.Model Require Import Names.
From Verif.Spec Require Import Names.
Local Open Scope list_scope.

Lemma sapp_assoc a b c : ((a ++ b) ++ c = a ++ (b ++ c))%string.
Proof. induction a; simpl; congruence. Qed.
Lemma sapp_nil a : (a ++ "" = a)%string.
Proof. induction a; simpl; congruence. Qed.
Lemma has_app c a b : has c (a ++ b) <-> has c a \/ has c b.
Proof. induction a; simpl; tauto. Qed.

(* Texts with tokens *)
Inductive piece := Lit (s : string) | Tok (n : string).
Fixpoint render (ps : list piece) : string := match ps with [] => EmptyString | Lit s :: r => (s ++ render r)%string | Tok n :: r => ("{" ++ n ++ "}" ++ render r)%string end.
Definition clean (p : piece) : Prop := match p with Lit s => ~ has "{" s | Tok n => ~ has "{" n /\ ~ has "}" n end.
Fixpoint sub (n v : string) (ps : list piece) : list piece :=
  match ps with [] => [] | Lit s :: r => Lit s :: sub n v r | Tok m :: r => if String.eqb m n then Lit v :: r else Tok m :: sub n v r end.
Lemma strip_tok n m r : ~ has "}" n -> ~ has "}" m -> strip_prefix (n ++ "}") (m ++ "}" ++ r) = if String.eqb m n then Some r else None.
Proof.
  revert m; induction n as [|a n IH]; intros [|b m] N M; cbn [append strip_prefix has String.eqb] in *.
  - reflexivity.
  - destruct (Ascii.eqb_spec "}" b) as [<-|_]; [destruct M; auto|reflexivity].
  - destruct (Ascii.eqb_spec a "}") as [->|_]; [destruct N; auto|reflexivity].
  - destruct (Ascii.eqb_spec a b) as [->|E].
    + rewrite IH by tauto. rewrite Ascii.eqb_refl. reflexivity.
    + destruct (Ascii.eqb_spec b a); [congruence|reflexivity].
Qed.
Lemma replace_lit s r t v : ~ has "{" s -> replace_first (s ++ r) ("{" ++ t) v = (s ++ replace_first r ("{" ++ t) v)%string.
Proof.
  induction s as [|c s IH]; intros H; [reflexivity|]. cbn [append has] in *. cbn [replace_first strip_prefix]. destruct (Ascii.eqb_spec "{" c) as [<-|_]; [destruct H; auto|].
  f_equal. apply IH. tauto.
Qed.
Lemma replace_render n v ps : ~ has "{" n -> ~ has "}" n -> Forall clean ps -> replace_first (render ps) ("{" ++ n ++ "}") v = render (sub n v ps).
Proof.
  intros N1 N2. induction 1 as [|p ps C F IH]; [reflexivity|]. destruct p as [s|m]; cbn [render sub].
  - rewrite replace_lit by exact C. rewrite IH. reflexivity.
  - destruct C as [M1 M2]. assert (S : strip_prefix ("{" ++ n ++ "}") ("{" ++ m ++ "}" ++ render ps) = if String.eqb m n then Some (render ps) else None).
    { change (strip_prefix (n ++ "}") (m ++ "}" ++ render ps) = if String.eqb m n then Some (render ps) else None). apply strip_tok; assumption. }
    assert (U : forall s t w, replace_first s t w = match strip_prefix t s with Some r => (w ++ r)%string | None => match s with EmptyString => EmptyString | String c s => String c (replace_first s t w) end end) by (intros []; reflexivity).
    rewrite U, S. destruct (String.eqb m n); [reflexivity|]. cbn [render append]. f_equal.
    change (replace_first (m ++ "}" ++ render ps) ("{" ++ n ++ "}") v = (m ++ "}" ++ render (sub n v ps))%string).
    rewrite replace_lit by exact M1. f_equal. rewrite replace_lit by (simpl; intros [Q|[]]; discriminate). f_equal. exact IH.
Qed.
Lemma sub_clean n v ps : ~ has "{" v -> Forall clean ps -> Forall clean (sub n v ps).
Proof. intros V. induction 1 as [|p ps C F IH]; simpl; [constructor|]. destruct p as [s|m]; [constructor; auto|]. destruct (String.eqb m n); constructor; auto. Qed.
(* Templates in which each token occurs once *)
Definition toks (ps : list piece) : list string := flat_map (fun p => match p with Tok n => [n] | Lit _ => [] end) ps.
Definition subst (look : string -> option string) (p : piece) : piece := match p with Tok n => match look n with Some v => Lit v | None => Tok n end | Lit s => Lit s end.
Lemma sub_subst n v ps : NoDup (toks ps) -> sub n v ps = map (subst (fun m => if String.eqb m n then Some v else None)) ps.
Proof.
  induction ps as [|[s|m] ps IH]; intros D; cbn [sub map subst]; [reflexivity|f_equal; apply IH, D|]. cbn [toks flat_map] in D. inversion D as [|? ? NI D']; subst.
  destruct (String.eqb_spec m n) as [->|E]; [|f_equal; apply IH, D']. f_equal. clear - NI. induction ps as [|[s|m] ps IH]; cbn; [reflexivity|f_equal; apply IH; exact NI|].
  cbn in NI. destruct (String.eqb_spec m n) as [->|E]; [destruct NI; left; reflexivity|]. f_equal. apply IH. tauto.
Qed.
Lemma toks_subst look ps : incl (toks (map (subst look) ps)) (toks ps) /\ (NoDup (toks ps) -> NoDup (toks (map (subst look) ps))).
Proof.
  induction ps as [|[s|m] ps [I N]]; cbn; [split; [intros ? []|auto]|split; assumption|]. destruct (look m) as [v|]; cbn.
  - split; [intros x X; right; apply I, X|]. intros D. inversion D; auto.
  - split; [intros x [X|X]; [left; exact X|right; apply I, X]|]. intros D. inversion D; subst. constructor; auto.
Qed.
Fixpoint look (params a : args) (n : string) : option string :=
  match params with [] => None | p :: r => if String.eqb n (fst p) then Some (replace_value a p) else look r a n end.
Lemma replace_clean a p : ~ has "{" (snd p) -> Forall (fun p => ~ has "{" (snd p)) a -> ~ has "{" (replace_value a p).
Proof.
  intros P A. unfold replace_value. destruct (get_arg (fst p) a) as [v|] eqn:G; [|exact P]. revert G. induction A as [|[n w] a W A IH]; simpl; [discriminate|].
  destruct (String.eqb n (fst p)); [intros [= <-]; exact W|exact IH].
Qed.
Lemma tokens_render params a ps : Forall (fun p => ~ has "{" (fst p) /\ ~ has "}" (fst p) /\ ~ has "{" (snd p)) params -> Forall (fun p => ~ has "{" (snd p)) a ->
  Forall clean ps -> NoDup (toks ps) -> replace_tokens params a (render ps) = render (map (subst (look params a)) ps).
Proof.
  intros P A. revert ps. induction P as [|p params (P1 & P2 & P3) P IH]; intros ps C D.
  - cbn. f_equal. induction ps as [|[s|m] ps IHp]; cbn in *; [reflexivity|f_equal; apply IHp; [inversion C; assumption|exact D]|]. inversion C; inversion D; subst. f_equal; auto.
  - unfold replace_tokens. cbn [fold_left]. rewrite replace_render by assumption. fold (replace_tokens params a). change (fold_left _ params ?s) with (replace_tokens params a s).
    rewrite IH; [|apply sub_clean; [apply replace_clean; assumption|exact C]|rewrite sub_subst by exact D; apply toks_subst, D].
    rewrite sub_subst by exact D. rewrite map_map. f_equal. apply map_ext. intros [s|m]; cbn; [reflexivity|]. destruct (String.eqb m (fst p)); reflexivity.
Qed.
Lemma look_value params a n v : NoDup (map fst params) -> In n (map fst params) -> value_of params a n v -> look params a n = Some v.
Proof.
  intros D I V. assert (G : forall q, In q params -> fst q = n -> replace_value a q = v).
  { intros [m d] Q E. simpl in E. subst m. unfold replace_value. simpl. destruct V as [w W|d' W J]; rewrite W; [reflexivity|]. simpl.
    clear - D Q J. induction params as [|[x y] params IH]; [destruct Q|]. simpl in D. inversion D as [|? ? NI D']; subst. destruct Q as [Q|Q], J as [J|J]; try congruence; auto.
    - injection Q as -> ->. destruct NI. apply (in_map fst) in J. exact J.
    - injection J as -> ->. destruct NI. apply (in_map fst) in Q. exact Q. }
  clear V D. induction params as [|p params IH]; [destruct I|]. simpl. destruct (String.eqb_spec n (fst p)) as [E|E].
  - f_equal. apply G; [left; reflexivity|congruence].
  - apply IH; [destruct I as [I|I]; [congruence|exact I]|]. intros q Q. apply G. right; exact Q.
Qed.
Ltac nohas := simpl; intuition discriminate.

(* C113: the name of a call of RIG_SELECT says which rigs it selects *)
Theorem C113_rig params a t : plain params a -> In "rig"%string (map fst params) -> In "rig_off"%string (map fst params) -> selects params a t -> rig_select_name params (Some a) = text_of t.
Proof.
  intros (D & P & A) R O S. unfold rig_select_name, given.
  assert (L1 : forall v, value_of params a "rig" v -> replace_tokens params a "Select Rig {rig}" = ("Select Rig " ++ v)%string).
  { intros v V. change "Select Rig {rig}"%string with (render [Lit "Select Rig "; Tok "rig"]). rewrite tokens_render; [|assumption..|repeat constructor; nohas|repeat constructor; nohas].
    cbn [map subst]. rewrite (look_value _ _ _ _ D R V). simpl. rewrite sapp_nil. reflexivity. }
  destruct S as [r o G N V|G C|r G C V].
  - rewrite G. destruct (String.eqb_spec o "None"); [contradiction|]. simpl negb. cbn iota.
    change "Toggle Rigs {rig}/{rig_off}"%string with (render [Lit "Toggle Rigs "; Tok "rig"; Lit "/"; Tok "rig_off"]). rewrite tokens_render; [|assumption..|repeat constructor; nohas|repeat constructor; nohas].
    cbn [map subst]. rewrite (look_value _ _ _ _ D R V), (look_value _ _ _ o D O (value_argument _ _ _ _ G)). cbn [render text_of]. rewrite sapp_nil. reflexivity.
  - assert ((match get_arg "rig_off" a with Some v => negb (String.eqb v "None") | None => false end) = false) as -> by (destruct (get_arg "rig_off" a) as [o|]; [rewrite (G o eq_refl)|]; reflexivity).
    rewrite C. reflexivity.
  - assert ((match get_arg "rig_off" a with Some v => negb (String.eqb v "None") | None => false end) = false) as -> by (destruct (get_arg "rig_off" a) as [o|]; [rewrite (G o eq_refl)|]; reflexivity).
    destruct (get_arg "rig" a) as [w|]; [destruct (String.eqb_spec w "None"); [congruence|]|]; apply L1, V.
Qed.
Print Assumptions C113_rig.
(* ... and it always selects something *)
Theorem C113_rig_total params a : In "rig"%string (map fst params) -> exists t, selects params a t.
Proof.
  intros R. assert (V : exists v, value_of params a "rig" v).
  { destruct (get_arg "rig" a) as [v|] eqn:G; [exists v; constructor; exact G|]. apply in_map_iff in R. destruct R as ([n d] & E & I). simpl in E. subst n. exists d. apply value_default; assumption. }
  destruct V as [v V]. destruct (get_arg "rig_off" a) as [o|] eqn:O; [destruct (String.eqb_spec o "None") as [->|N]|].
  - destruct (get_arg "rig" a) as [w|] eqn:G; [destruct (String.eqb_spec w "None") as [->|]|]; [exists Current|exists (Rig v)|exists (Rig v)]; constructor; congruence || assumption.
  - exists (Toggle v o). constructor; assumption.
  - destruct (get_arg "rig" a) as [w|] eqn:G; [destruct (String.eqb_spec w "None") as [->|]|]; [exists Current|exists (Rig v)|exists (Rig v)]; constructor; congruence || assumption.
Qed.
Print Assumptions C113_rig_total.
Lemma app_slash a b c d : ~ has "/" a -> ~ has "/" c -> (a ++ String "/" b = c ++ String "/" d)%string -> a = c /\ b = d.
Proof.
  revert c; induction a as [|x a IH]; intros [|y c] A C E; simpl in *.
  - injection E as ->. auto.
  - injection E as <- _. destruct C; auto.
  - injection E as -> _. destruct A; auto.
  - injection E as -> E. destruct (IH c) as [-> ->]; tauto.
Qed.
(* C113: calls with the same name select the same rigs *)
Theorem C113_rig_distinct t u : (forall r o, t = Toggle r o \/ u = Toggle r o -> ~ has "/" r) -> text_of t = text_of u -> t = u.
Proof.
  intros H E. destruct t as [r| |r o], u as [r'| |r' o']; simpl in E; try discriminate E; [|reflexivity|].
  - injection E as ->. reflexivity.
  - injection E as E. destruct (app_slash r o r' o') as [-> ->]; [apply (H r o); auto|apply (H r' o'); auto|exact E|reflexivity].
Qed.
Print Assumptions C113_rig_distinct.

(* C113: the same for banks *)
Theorem C113_bank params a t : plain params a -> In "bank"%string (map fst params) -> In "bank_off"%string (map fst params) -> selects_bank params a t -> bank_select_name params (Some a) = bank_text t.
Proof.
  intros (D & P & A) R O S. unfold bank_select_name, given.
  assert (L1 : forall v, value_of params a "bank" v -> replace_tokens params a "Select Bank {bank}" = ("Select Bank " ++ v)%string).
  { intros v V. change "Select Bank {bank}"%string with (render [Lit "Select Bank "; Tok "bank"]). rewrite tokens_render; [|assumption..|repeat constructor; nohas|repeat constructor; nohas].
    cbn [map subst]. rewrite (look_value _ _ _ _ D R V). simpl. rewrite sapp_nil. reflexivity. }
  assert (L2 : forall v, value_of params a "bank" v -> replace_tokens params a "Preselect Bank {bank}" = ("Preselect Bank " ++ v)%string).
  { intros v V. change "Preselect Bank {bank}"%string with (render [Lit "Preselect Bank "; Tok "bank"]). rewrite tokens_render; [|assumption..|repeat constructor; nohas|repeat constructor; nohas].
    cbn [map subst]. rewrite (look_value _ _ _ _ D R V). simpl. rewrite sapp_nil. reflexivity. }
  destruct S as [r o G N V|r G C V|r G C V].
  - rewrite G. destruct (String.eqb_spec o "None"); [contradiction|]. simpl negb. cbn iota.
    change "Toggle Banks {bank}/{bank_off}"%string with (render [Lit "Toggle Banks "; Tok "bank"; Lit "/"; Tok "bank_off"]). rewrite tokens_render; [|assumption..|repeat constructor; nohas|repeat constructor; nohas].
    cbn [map subst]. rewrite (look_value _ _ _ _ D R V), (look_value _ _ _ o D O (value_argument _ _ _ _ G)). cbn [render bank_text]. rewrite sapp_nil. reflexivity.
  - assert ((match get_arg "bank_off" a with Some v => negb (String.eqb v "None") | None => false end) = false) as -> by (destruct (get_arg "bank_off" a) as [o|]; [rewrite (G o eq_refl)|]; reflexivity).
    rewrite C. apply L2, V.
  - assert ((match get_arg "bank_off" a with Some v => negb (String.eqb v "None") | None => false end) = false) as -> by (destruct (get_arg "bank_off" a) as [o|]; [rewrite (G o eq_refl)|]; reflexivity).
    destruct (get_arg "preselect" a) as [w|]; [destruct (String.eqb_spec w "True"); [congruence|]|]; apply L1, V.
Qed.
Print Assumptions C113_bank.
Theorem C113_button params a n : plain params a -> In "num"%string (map fst params) -> get_arg "num" a = Some n -> effect_button_name params (Some a) = ("Effect Button " ++ n)%string.
Proof.
  intros (D & P & A) R G. unfold effect_button_name. rewrite G. change "Effect Button {num}"%string with (render [Lit "Effect Button "; Tok "num"]).
  rewrite tokens_render; [|assumption..|repeat constructor; nohas|repeat constructor; nohas]. cbn [map subst]. rewrite (look_value _ _ _ n D R (value_argument _ _ _ _ G)). simpl. rewrite sapp_nil. reflexivity.
Qed.
Print Assumptions C113_button.

Lemma upper_id c : (nat_of_ascii c < 97 \/ 122 < nat_of_ascii c)%nat -> upper c = c /\ upper (lower c) = c.
Proof.
  intros H. unfold upper at 1. destruct (Nat.leb 97 (nat_of_ascii c) && Nat.leb (nat_of_ascii c) 122)%bool eqn:E.
  - apply andb_prop in E. destruct E as [A B]. apply Nat.leb_le in A, B. lia.
  - split; [reflexivity|]. clear E. destruct c as [[] [] [] [] [] [] [] []]; try reflexivity; exfalso; revert H; compute; lia.
Qed.
Lemma split_cons c s : exists t r, split_at c s = t :: r.
Proof. destruct s as [|x s]; simpl; [eauto|]. destruct (Ascii.eqb x c); [eauto|]. destruct (split_at c s); eauto. Qed.
Definition back (c : ascii) : ascii := if Ascii.eqb c " " then "_"%char else upper c.
Lemma back_id c : (nat_of_ascii c < 97 \/ 122 < nat_of_ascii c)%nat -> c <> " "%char -> back (upper c) = c /\ back (lower c) = c.
Proof.
  intros H N. destruct (upper_id c H) as [A B]. unfold back. rewrite A.
  assert (L : lower c <> " "%char) by (intros L; apply N; rewrite <- B, L; reflexivity).
  destruct (Ascii.eqb_spec c " ") as [E|_]; [contradiction|]. destruct (Ascii.eqb_spec (lower c) " ") as [E|_]; [contradiction|]. rewrite A, B. auto.
Qed.
Lemma map_app_string f a b : map_string f (a ++ b) = (map_string f a ++ map_string f b)%string.
Proof. induction a; simpl; congruence. Qed.
Lemma back_cap t : constant_name t -> map_string back (capitalize t) = t.
Proof.
  intros H. destruct t as [|c t]; [reflexivity|]. simpl. assert (C : constant_name t) by (intros x X; apply H; right; exact X).
  destruct (back_id c) as [A _]; [apply H; left; reflexivity|apply H; left; reflexivity|]. rewrite A. f_equal. clear H A. induction t as [|x t IH]; [reflexivity|]. simpl.
  destruct (back_id x) as [_ B]; [apply C; left; reflexivity|apply C; left; reflexivity|]. rewrite B. f_equal. apply IH. intros y Y. apply C. right; exact Y.
Qed.
Lemma split_has c s t x : In t (split_at c s) -> has x t -> has x s.
Proof.
  revert t; induction s as [|y s IH]; intros t I X; simpl in I.
  - destruct I as [<-|[]]. destruct X.
  - destruct (Ascii.eqb y c); [destruct I as [<-|I]; [destruct X|right; eapply IH; eauto]|]. destruct (split_cons c s) as (u & r & E). rewrite E in I, IH.
    destruct I as [<-|I]; [destruct X as [X|X]; [left; exact X|right; apply (IH u); [left; reflexivity|exact X]]|right; apply (IH t); [right; exact I|exact X]].
Qed.
Lemma concat_back l : (forall t, In t l -> map_string back (capitalize t) = t) -> map_string back (String.concat " " (map capitalize l)) = String.concat "_" l.
Proof.
  induction l as [|t l IH]; intros H; [reflexivity|]. destruct l as [|u l].
  - simpl. apply H. left; reflexivity.
  - change (String.concat " " (map capitalize (t :: u :: l))) with (capitalize t ++ " " ++ String.concat " " (map capitalize (u :: l)))%string.
    change (String.concat "_" (t :: u :: l)) with (t ++ "_" ++ String.concat "_" (u :: l))%string. rewrite !map_app_string, IH by (intros x X; apply H; right; exact X).
    rewrite H by (left; reflexivity). reflexivity.
Qed.
Lemma concat_split s : String.concat "_" (split_at "_" s) = s.
Proof.
  induction s as [|c s IH]; [reflexivity|]. simpl. destruct (split_cons "_" s) as (t & r & E). rewrite E in *. destruct (Ascii.eqb_spec c "_") as [->|_].
  - change (String.concat "_" (EmptyString :: t :: r)) with ("_" ++ String.concat "_" (t :: r))%string. rewrite IH. reflexivity.
  - destruct r as [|u r]; simpl in *; rewrite IH; reflexivity.
Qed.
(* C113: functions with different names have different names for the user *)
Theorem C113_distinct s u : constant_name s -> constant_name u -> display_name s = display_name u -> s = u.
Proof.
  assert (G : forall x, constant_name x -> map_string back (display_name x) = x).
  { intros x X. unfold display_name. rewrite concat_back; [apply concat_split|]. intros t I. apply back_cap. intros c C. apply X. eapply split_has; eauto. }
  intros S U E. rewrite <- (G s S), <- (G u U), E. reflexivity.
Qed.
Print Assumptions C113_distinct.

(* C113: the name of an effect state says the slot, whatever else is given *)
Theorem C113_slot a x : In x ["A"; "B"; "C"; "D"; "X"; "MOD"; "DLY"; "REV"]%string -> get_arg "slot_id" a = Some ("KemperEffectSlot.EFFECT_SLOT_ID_" ++ x)%string ->
  effect_state_name (Some a) = ("Effect State " ++ x)%string.
Proof. intros I G. unfold effect_state_name. rewrite G. simpl in I. repeat (destruct I as [<-|I]; [reflexivity|]). destruct I. Qed.
Print Assumptions C113_slot.
(* C113 (refuted): "different actions have different names": the bank of a rig is not told, nor if the delay has spillover *)
Theorem C113_bank_refuted params v : plain params [("rig", "3"); ("bank", v)]%string -> In "rig"%string (map fst params) -> In "rig_off"%string (map fst params) ->
  rig_select_name params (Some [("rig", "3"); ("bank", v)])%string = "Select Rig 3"%string.
Proof.
  intros P R O. etransitivity; [apply (C113_rig params _ (Rig "3") P R O)|reflexivity]. apply selects_rig; [intros o; simpl; discriminate|simpl; discriminate|apply value_argument; reflexivity].
Qed.
Print Assumptions C113_bank_refuted.
Theorem C113_slot_refuted : effect_state_name (Some [("slot_id", "KemperEffectSlot.EFFECT_SLOT_ID_DLY")])%string = effect_state_name (Some [("slot_id", "KemperEffectSlot.EFFECT_SLOT_ID_DLY_NO_SPILL")])%string.
Proof. reflexivity. Qed.
Print Assumptions C113_slot_refuted.

Example ex_names : let params := [("rig", "1"); ("rig_off", "None"); ("bank", "None")]%string in
  plain params [("rig", "3"); ("rig_off", "5")]%string /\ rig_select_name params (Some [("rig", "3"); ("rig_off", "5")])%string = "Toggle Rigs 3/5"%string /\
  rig_select_name params (Some [])%string = "Select Rig 1"%string /\ display_name "BANK_UP" = "Bank Up"%string /\ effect_state_name (Some [("slot_id", "KemperEffectSlot.EFFECT_SLOT_ID_MOD")])%string = "Effect State MOD"%string.
Proof. split; [|vm_compute; repeat split; reflexivity]. repeat split; repeat constructor; simpl; intuition discriminate. Qed.
