(** C77: which lines of the shipped configuration files the nodes read. *)

From Coq Require Import String Ascii List Bool Arith Lia FinFun.
From Verif Require Import ConfigFiles.
Import ListNotations.
Open Scope string_scope.

(** ** Specification *)

(** What the node reads after the file has been loaded on top of whatever was on the server. *)
Definition gets (node : path) (prior : server) (file : list line) (r : read) : option string :=
  reading node (prior ++ load node file)%list r.
(** The line [l] between [a] and [b]: whatever is written as its value, the node reads the same. *)
Definition without_effect (node : path) (reads : list read) (a : list line) (l : line) (b : list line) : Prop :=
  forall prior t r, In r reads ->
    gets node prior (a ++ Line (key l) t :: b)%list r = gets node prior (a ++ l :: b)%list r.

(** ** Proofs *)

Lemma path_eqb_eq : forall a b, path_eqb a b = true <-> a = b.
Proof.
  induction a as [|x a IH]; intros [|y b]; cbn; split; intros H; try discriminate; try reflexivity.
  - apply andb_true_iff in H. destruct H as [H1 H2]. apply String.eqb_eq in H1. apply IH in H2. congruence.
  - injection H as -> ->. apply andb_true_iff. split; [apply String.eqb_refl|now apply IH].
Qed.
Lemma path_eqb_neq a b : path_eqb a b = false <-> a <> b.
Proof.
  rewrite <- path_eqb_eq. destruct (path_eqb a b); split; intros H; congruence || auto.
Qed.

Lemma lookup_fold s p o : fold_left (fun found x => if path_eqb (fst x) p then Some (snd x) else found) s o =
  match lookup s p with Some v => Some v | None => o end.
Proof.
  unfold lookup. revert o. induction s as [|x s IH]; intros o; [reflexivity|]. cbn [fold_left].
  rewrite IH. rewrite (IH (if path_eqb (fst x) p then Some (snd x) else None)).
  destruct (fold_left _ s None); [reflexivity|]. destruct (path_eqb (fst x) p); reflexivity.
Qed.
Lemma lookup_app s1 s2 p : lookup (s1 ++ s2)%list p = match lookup s2 p with Some v => Some v | None => lookup s1 p end.
Proof. unfold lookup at 1. rewrite fold_left_app, lookup_fold. reflexivity. Qed.
Lemma lookup_cons x s p : lookup (x :: s) p = match lookup s p with Some v => Some v | None => if path_eqb (fst x) p then Some (snd x) else None end.
Proof. unfold lookup at 1. cbn [fold_left]. apply lookup_fold. Qed.
Lemma lookup_none s p : lookup s p = None <-> ~ In p (map fst s).
Proof.
  induction s as [|x s IH]; [cbn; tauto|]. rewrite lookup_cons. cbn [map In].
  destruct (lookup s p) eqn:E.
  - split; [discriminate|]. intros H. exfalso. destruct IH as [_ IH]. assert (~ In p (map fst s)) by tauto. specialize (IH H0). discriminate.
  - destruct (path_eqb (fst x) p) eqn:F.
    + apply path_eqb_eq in F. split; [discriminate|]. tauto.
    + apply path_eqb_neq in F. split; [|reflexivity]. intros _. destruct IH as [IH _]. specialize (IH eq_refl). tauto.
Qed.
Lemma load_names node file : map fst (load node file) = map (fun l => resolve node (key l)) file.
Proof. unfold load. rewrite map_map. reflexivity. Qed.

Lemma lookup_line node prior a l b p :
  lookup (prior ++ load node (a ++ l :: b))%list p =
  match lookup (load node b) p with
  | Some v => Some v
  | None => if path_eqb (resolve node (key l)) p then Some (text l)
            else match lookup (load node a) p with Some v => Some v | None => lookup prior p end
  end.
Proof.
  unfold load. rewrite map_app. cbn [map]. rewrite lookup_app, lookup_app, lookup_cons. cbn [fst snd].
  destruct (lookup (map _ b) p); [reflexivity|]. destruct (path_eqb _ p); reflexivity.
Qed.

(** *** Any file and any node *)

(** A line is read exactly when the node reads a parameter of its name and no later line has that name;
    what is read is then its value if it is of the right type, and the default otherwise. *)
Theorem C77_read : forall node prior a l b r,
  target node r = resolve node (key l) -> ~ In (resolve node (key l)) (map (fun x => resolve node (key x)) b) ->
  gets node prior (a ++ l :: b)%list r = if accepts (wants r) (scalar (text l)) then Some (text l) else None.
Proof.
  intros node prior a l b r Ht Hb. unfold gets, reading. rewrite lookup_line, Ht.
  rewrite <- load_names in Hb. apply lookup_none in Hb. rewrite Hb.
  assert (path_eqb (resolve node (key l)) (resolve node (key l)) = true) as -> by now apply path_eqb_eq.
  reflexivity.
Qed.
Print Assumptions C77_read.

Lemma two_values w : exists t1 t2, t1 <> t2 /\ accepts w (scalar t1) = true /\ accepts w (scalar t2) = true.
Proof.
  destruct w; [exists "true", "false"|exists "0", "1"|exists "a", "b"]; (split; [discriminate|split; reflexivity]).
Qed.

Theorem C77_without_effect : forall node reads a l b,
  without_effect node reads a l b <->
  (forall r, In r reads -> target node r <> resolve node (key l)) \/
  In (resolve node (key l)) (map (fun x => resolve node (key x)) b).
Proof.
  intros node reads a l b. split.
  - intros H. destruct (in_dec (list_eq_dec string_dec) (resolve node (key l)) (map (fun x => resolve node (key x)) b)) as [|Hb]; [now right|].
    left. intros r Hr Ht. destruct (two_values (wants r)) as (t1 & t2 & Hne & A1 & A2).
    pose proof (H [] t1 r Hr) as H1. pose proof (H [] t2 r Hr) as H2. rewrite <- H2 in H1.
    rewrite !C77_read in H1 by (cbn [key]; assumption). cbn [text] in H1. rewrite A1, A2 in H1. congruence.
  - intros H prior t r Hr. unfold gets, reading. rewrite !lookup_line. cbn [key text].
    destruct (path_eqb (resolve node (key l)) (target node r)) eqn:E; [|reflexivity].
    apply path_eqb_eq in E. destruct H as [H|H]; [exfalso; now apply (H r Hr)|].
    destruct (lookup (load node b) (target node r)) eqn:F; [reflexivity|].
    exfalso. apply lookup_none in F. rewrite load_names, <- E in F. tauto.
Qed.
Print Assumptions C77_without_effect.

(** *** Files with relative names, nodes that read private names only *)
Definition relative (l : line) : bool := match key l with String c _ => negb (c =? "/")%char | "" => false end.
Definition private (r : read) : bool :=
  match from r with String c _ => (c =? "~")%char | "" => false end &&
  match name r with String c _ => negb (c =? "/")%char | "" => false end.
Lemma resolve_relative node l : relative l = true -> resolve node (key l) = (node ++ parts "" (key l))%list.
Proof.
  unfold relative, resolve. destruct (key l) as [|c s]; [discriminate|]. destruct (c =? "/")%char; [discriminate|reflexivity].
Qed.
Lemma target_private node r : private r = true -> target node r = (node ++ target [] r)%list.
Proof.
  unfold private, target, handle, resolve. intros H. apply andb_true_iff in H. destruct H as [H1 H2].
  destruct (from r) as [|c s]; [discriminate|]. rewrite H1.
  destruct (name r) as [|d t]; [discriminate|]. destruct (d =? "/")%char; [discriminate|].
  rewrite app_assoc. reflexivity.
Qed.

Definition in_paths (p : path) (l : list path) : bool := existsb (path_eqb p) l.
Lemma in_paths_in p l : in_paths p l = true <-> In p l.
Proof.
  unfold in_paths. rewrite existsb_exists. split.
  - intros (x & H & E). apply path_eqb_eq in E. congruence.
  - intros H. exists p. split; [assumption|now apply path_eqb_eq].
Qed.
Fixpoint check (targets : list path) (dead : list string) (file : list line) : bool :=
  match file with
  | [] => true
  | l :: b => relative l &&
      eqb (negb (in_paths (parts "" (key l)) targets) || in_paths (parts "" (key l)) (map (fun x => parts "" (key x)) b))
          (existsb (String.eqb (key l)) dead) && check targets dead b
  end.
Lemma check_relative targets dead file : check targets dead file = true -> forall l, In l file -> relative l = true.
Proof.
  induction file as [|x file IH]; intros H l [].
  - subst. cbn [check] in H. now destruct (relative l).
  - cbn [check] in H. apply andb_true_iff in H. now apply IH.
Qed.
Lemma existsb_string k l : existsb (String.eqb k) l = true <-> In k l.
Proof.
  rewrite existsb_exists. split.
  - intros (x & H & E). apply String.eqb_eq in E. congruence.
  - intros H. exists k. split; [assumption|apply String.eqb_refl].
Qed.
Lemma check_sound reads dead file : forallb private reads = true -> check (map (target []) reads) dead file = true ->
  forall node a l b, file = (a ++ l :: b)%list -> (without_effect node reads a l b <-> In (key l) dead).
Proof.
  intros Hp Hc node a l b Hf. rewrite C77_without_effect.
  assert (Hrel : forall x, In x (l :: b) -> relative x = true).
  { intros x Hx. apply (check_relative _ _ _ Hc). subst. apply in_or_app. now right. }
  assert (Hl : check (map (target []) reads) dead (l :: b) = true).
  { subst. clear -Hc. induction a as [|x a IH]; [assumption|]. cbn [app check] in Hc. apply andb_true_iff in Hc. now apply IH. }
  cbn [check] in Hl. apply andb_true_iff in Hl. destruct Hl as [Hl _]. apply andb_true_iff in Hl. destruct Hl as [_ Hl].
  apply eqb_prop in Hl. rewrite <- existsb_string, <- Hl, orb_true_iff, in_paths_in.
  rewrite (resolve_relative node l) by (apply Hrel; now left).
  assert (E : map (fun x => resolve node (key x)) b = map (fun x => node ++ parts "" (key x))%list b).
  { apply map_ext_in. intros x Hx. apply resolve_relative, Hrel. now right. }
  rewrite E. rewrite forallb_forall in Hp.
  assert (M : In (node ++ parts "" (key l))%list (map (fun x => node ++ parts "" (key x))%list b) <->
              In (parts "" (key l)) (map (fun x => parts "" (key x)) b)).
  { rewrite !in_map_iff. split; intros (x & H1 & H2); exists x; (split; [|assumption]).
    - now apply app_inv_head in H1.
    - now rewrite H1. }
  rewrite M. apply or_iff_compat_r. rewrite negb_true_iff, <- not_true_iff_false, in_paths_in, in_map_iff. split.
  - intros H (r & E1 & E2). apply (H r E2). rewrite target_private by auto. now rewrite E1.
  - intros H r Hr Ht. apply H. exists r. split; [|assumption]. rewrite target_private in Ht by auto. now apply app_inv_head in Ht.
Qed.

(** *** The shipped files: the lines without effect, whatever the node is called *)

(** The line that is to switch the playback of recorded data on has none, in any file: the core reads
    the parameter in its own namespace. *)
Theorem C77_pose_file : forall node a l b, pose_file = (a ++ l :: b)%list ->
  (without_effect node pose_reads a l b <-> In (key l) ["data_playback"]).
Proof. apply check_sound; vm_compute; reflexivity. Qed.
Print Assumptions C77_pose_file.

(** The lever arm is not held fixed: the parameter is called position_fixed_p_ip. *)
Theorem C77_position_file : forall node a l b, position_file = (a ++ l :: b)%list ->
  (without_effect node position_reads a l b <->
   In (key l) ["scale_init"; "data_playback"; "position_sensor/position_fixed_ppi"; "position_sensor/position_measurement_world_sensor"]).
Proof. apply check_sound; vm_compute; reflexivity. Qed.
Print Assumptions C77_position_file.

(** Of the settings of the pose sensor only the flags of the handler and the calibration are read. *)
Theorem C77_pose_pressure_file : forall node a l b, pose_pressure_file = (a ++ l :: b)%list ->
  (without_effect node pose_pressure_reads a l b <->
   In (key l) ["data_playback"; "pose_sensor/pose_fixed_scale"; "pose_sensor/pose_noise_scale"; "pose_sensor/pose_noise_p_wv";
     "pose_sensor/pose_noise_q_wv"; "pose_sensor/pose_noise_q_ic"; "pose_sensor/pose_noise_p_ic"; "pose_sensor/pose_delay";
     "pose_sensor/pose_noise_meas_p"; "pose_sensor/pose_noise_meas_q"; "pose_sensor/pose_initial_scale";
     "pose_sensor/pose_fixed_p_ic"; "pose_sensor/pose_fixed_q_ic"; "pose_sensor/pose_fixed_p_wv"; "pose_sensor/pose_fixed_q_wv"]).
Proof. apply check_sound; vm_compute; reflexivity. Qed.
Print Assumptions C77_pose_pressure_file.

Theorem C77_position_pose_file : forall node a l b, position_pose_file = (a ++ l :: b)%list ->
  (without_effect node position_pose_reads a l b <->
   In (key l) ["data_playback"; "pose_sensor/pose_fixed_scale"; "pose_sensor/pose_noise_scale"; "pose_sensor/pose_noise_p_wv";
     "pose_sensor/pose_noise_q_wv"; "pose_sensor/pose_noise_q_ic"; "pose_sensor/pose_noise_p_ic"; "pose_sensor/pose_delay";
     "pose_sensor/pose_noise_meas_p"; "pose_sensor/pose_noise_meas_q"; "pose_sensor/pose_initial_scale";
     "position_pose_sensor/enable_tcp_no_delay"]).
Proof. apply check_sound; vm_compute; reflexivity. Qed.
Print Assumptions C77_position_pose_file.

(** *** The values read *)

(** Numbers in scientific notation without a decimal point are strings in YAML 1.1. *)
Lemma digit_word c s : digit c = true -> existsb (String.eqb (String c s)) words = false.
Proof.
  destruct c as [[|] [|] [|] [|] [|] [|] [|] [|]]; intros H; try discriminate H; reflexivity.
Qed.
Lemma digit_sign c : digit c = true -> is_sign c = false.
Proof. destruct c as [[|] [|] [|] [|] [|] [|] [|] [|]]; intros H; try discriminate H; reflexivity. Qed.
Lemma scalar_digit c s : digit c = true -> scalar (String c s) = number true s.
Proof.
  intros H. unfold scalar. rewrite digit_word, digit_sign by assumption.
  assert (E : (c =? ".")%char = false) by (destruct c as [[|] [|] [|] [|] [|] [|] [|] [|]]; try discriminate H; reflexivity).
  rewrite E. cbn [number]. now rewrite H.
Qed.
Lemma number_digits d s : digits d = true -> number true (d ++ s) = number true s.
Proof.
  induction d as [|c d IH]; intros H; [reflexivity|]. cbn [digits] in H. apply andb_true_iff in H. destruct H as [H1 H2].
  cbn [append number]. rewrite H1. now apply IH.
Qed.
Lemma fraction_digits d s : digits d = true -> fraction (d ++ s) = fraction s.
Proof.
  induction d as [|c d IH]; intros H; [reflexivity|]. cbn [digits] in H. apply andb_true_iff in H. destruct H as [H1 H2].
  cbn [append fraction]. rewrite H1. now apply IH.
Qed.
Theorem C77_scientific : forall m x, digits1 m = true -> digits1 x = true ->
  scalar (m ++ "e-" ++ x) = KString /\
  forall f, digits f = true -> scalar (m ++ "." ++ f ++ "e-" ++ x) = KFloat.
Proof.
  intros [|c m] x Hm Hx; [discriminate|]. cbn [digits1 digits] in Hm. apply andb_true_iff in Hm. destruct Hm as [Hc Hm]. split.
  - cbn [append]. rewrite scalar_digit by assumption. now rewrite number_digits.
  - intros f Hf. cbn [append]. rewrite scalar_digit by assumption. rewrite number_digits by assumption.
    cbn [number digit]. change (digit ".") with false. cbn [eqb Ascii.eqb Bool.eqb].
    rewrite fraction_digits by assumption. cbn [fraction]. change (digit "e") with false. cbn [Ascii.eqb Bool.eqb orb is_sign andb].
    now rewrite Hx.
Qed.
Print Assumptions C77_scientific.

(** What numbers look like, told without reading them. *)
Definition decimal (s : string) : Prop := forall c, In c (list_ascii_of_string s) -> In c (list_ascii_of_string "0123456789").
Definition sign (s : string) : Prop := In s [""; "-"; "+"].
Definition exponent (s : string) : Prop :=
  s = "" \/ exists e g x, In e ["e"; "E"] /\ In g ["-"; "+"] /\ decimal x /\ x <> "" /\ s = e ++ g ++ x.

Lemma digit_in c : digit c = true <-> In c (list_ascii_of_string "0123456789").
Proof.
  split.
  - destruct c as [[|] [|] [|] [|] [|] [|] [|] [|]]; intros H; try discriminate H; cbn; tauto.
  - cbn. intros H. repeat (destruct H as [<-|H]; [reflexivity|]). destruct H.
Qed.
Lemma digits_decimal s : digits s = true <-> decimal s.
Proof.
  unfold decimal. induction s as [|c s IH]; cbn [digits list_ascii_of_string].
  - split; [intros _ c []|reflexivity].
  - rewrite andb_true_iff, IH, digit_in. split.
    + intros [H1 H2] x [<-|H]; auto.
    + intros H. split; [apply H; now left|]. intros x Hx. apply H. now right.
Qed.
Lemma digits1_decimal s : digits1 s = true <-> decimal s /\ s <> "".
Proof. rewrite <- digits_decimal. destruct s; cbn [digits1]; split; [discriminate|tauto| |tauto]. intros H. now split. Qed.
Lemma is_sign_in c : is_sign c = true <-> c = "-"%char \/ c = "+"%char.
Proof. unfold is_sign. rewrite orb_true_iff, !Ascii.eqb_eq. tauto. Qed.
Lemma fraction_spec s : fraction s = true <-> exists f e, decimal f /\ exponent e /\ s = f ++ e.
Proof.
  induction s as [|c s IH]; cbn [fraction].
  - split; [|reflexivity]. intros _. exists "", "". repeat split; [intros c []|now left].
  - destruct (digit c) eqn:D.
    + rewrite IH. split; intros (f & e & Hf & He & E).
      * exists (String c f), e. repeat split; [|assumption|now rewrite E].
        intros x [<-|Hx]; [now apply digit_in|auto].
      * destruct f as [|c' f].
        -- cbn in E. subst e. destruct He as [He|(e & g & x & He & _ & _ & _ & E)]; [discriminate|].
           cbn in He. destruct He as [<-|[<-|[]]]; cbn in E; inversion E; subst c; discriminate.
        -- cbn in E. inversion E; subst. exists f, e. repeat split; [|assumption]. intros x Hx. apply Hf. now right.
    + split.
      * destruct ((c =? "e")%char || (c =? "E")%char) eqn:E; [|discriminate]. destruct s as [|g s]; [discriminate|].
        rewrite andb_true_iff, is_sign_in, digits1_decimal. intros [Hg [H1 H2]]. exists "", (String c (String g s)).
        split; [intros x []|]. split; [|reflexivity]. right. exists (String c ""), (String g ""), s.
        apply orb_true_iff in E. rewrite !Ascii.eqb_eq in E.
        split; [destruct E as [-> | ->]; cbn; tauto|]. split; [destruct Hg as [-> | ->]; cbn; tauto|]. now repeat split.
      * intros (f & e & Hf & He & E). destruct f as [|c' f].
        -- cbn in E. subst e. destruct He as [He|(e & g & x & He & Hg & Hx & Nx & E)]; [discriminate|].
           assert (X : digits1 x = true) by now apply digits1_decimal.
           cbn in He, Hg. destruct He as [<-|[<-|[]]]; destruct Hg as [<-|[<-|[]]]; cbn in E; inversion E; subst; cbn [Ascii.eqb Bool.eqb orb is_sign andb]; assumption.
        -- cbn in E. inversion E; subst. assert (digit c' = true) by (apply digit_in, Hf; now left). congruence.
Qed.
Lemma number_spec b s :
  (number b s = KFloat <-> exists m r, decimal m /\ fraction r = true /\ s = m ++ "." ++ r /\ (b = true \/ m <> "")) /\
  (number b s = KInt <-> decimal s /\ (b = true \/ s <> "")).
Proof.
  revert b. induction s as [|c s IH]; intros b; cbn [number].
  - split; split.
    + destruct b; discriminate.
    + intros ([|c m] & r & _ & _ & E & _); discriminate.
    + destruct b; [|discriminate]. intros _. split; [intros x []|now left].
    + intros [_ [-> |H]]; [reflexivity|tauto].
  - destruct (digit c) eqn:D.
    + specialize (IH true). destruct IH as [IH1 IH2]. rewrite IH1, IH2. split; split.
      * intros (m & r & Hm & Hr & E & _). exists (String c m), r. repeat split; [|assumption|now rewrite E|right; discriminate].
        intros x [<-|Hx]; [now apply digit_in|auto].
      * intros ([|c' m] & r & Hm & Hr & E & _); cbn in E; inversion E; subst; [discriminate|].
        exists m, r. repeat split; [|assumption|now left]. intros x Hx. apply Hm. now right.
      * intros [H _]. split; [|right; discriminate]. intros x [<-|Hx]; [now apply digit_in|auto].
      * intros [H _]. split; [|now left]. intros x Hx. apply H. now right.
    + assert (Nd : ~ In c (list_ascii_of_string "0123456789")) by (rewrite <- digit_in; congruence).
      assert (N : ~ decimal (String c s)) by (intros H; apply Nd, H; now left).
      destruct ((c =? ".")%char) eqn:E; [apply Ascii.eqb_eq in E; subst c|apply Ascii.eqb_neq in E].
      * split; split.
        -- destruct b; [|discriminate]. destruct (fraction s) eqn:F; [|discriminate]. intros _. exists "", s.
           split; [intros x []|]. repeat split; [assumption|now left].
        -- intros ([|c' m] & r & Hm & Hr & E & Hb); cbn in E; inversion E; subst.
           ++ destruct Hb as [-> |Hb]; [now rewrite Hr|tauto].
           ++ exfalso. apply Nd, Hm. now left.
        -- destruct (b && fraction s); discriminate.
        -- tauto.
      * split; split; try discriminate; try tauto.
        intros ([|c' m] & r & Hm & Hr & E' & Hb); cbn in E'; inversion E'; subst; [tauto|]. exfalso. apply Nd, Hm. now left.
Qed.
Definition starts (c : ascii) : bool := digit c || is_sign c || (c =? ".")%char.
Lemma starts_word c s : starts c = true -> existsb (String.eqb (String c s)) words = false.
Proof. destruct c as [[|] [|] [|] [|] [|] [|] [|] [|]]; intros H; try discriminate H; reflexivity. Qed.
Lemma word_kind s : existsb (String.eqb s) words = true -> exists c r, s = String c r /\ starts c = false.
Proof.
  destruct s as [|c r]; [discriminate|]. intros H. exists c, r. split; [reflexivity|]. apply not_true_iff_false. intros S.
  rewrite starts_word in H by assumption. discriminate.
Qed.
Lemma app_cons c a b : String c a ++ b = String c (a ++ b). Proof. reflexivity. Qed.

(** The numbers with a point are the texts of the form sign, digits, point, digits, exponent, where the
    exponent has a sign of its own, and digits stand before the point, or behind it without a sign in front. *)
Theorem C77_float : forall s, scalar s = KFloat <-> exists sg m f e, sign sg /\ decimal m /\ decimal f /\ exponent e /\
  s = sg ++ m ++ "." ++ f ++ e /\ (m <> "" \/ sg = "" /\ f <> "").
Proof.
  intros s. split.
  - unfold scalar. destruct (existsb (String.eqb s) words) eqn:W; [discriminate|]. destruct s as [|c r]; [discriminate|].
    destruct (is_sign c) eqn:S.
    + intros H. apply number_spec in H. destruct H as (m & r' & Hm & Hr & -> & [Hb|Hb]); [discriminate|].
      apply fraction_spec in Hr. destruct Hr as (f & e & Hf & He & ->). exists (String c ""), m, f, e.
      split; [|split; [assumption|]; split; [assumption|]; split; [assumption|]; split; [reflexivity|now left]].
      apply is_sign_in in S. unfold sign. destruct S as [-> | ->]; cbn; tauto.
    + destruct ((c =? ".")%char) eqn:E.
      * destruct r as [|d r]; [discriminate|]. destruct (digit d) eqn:D; [|discriminate]. destruct (fraction r) eqn:F; [|discriminate].
        intros _. apply Ascii.eqb_eq in E. subst c. apply fraction_spec in F. destruct F as (f & e & Hf & He & ->).
        exists "", "", (String d f), e. split; [now left|]. split; [intros x []|]. split.
        { intros x [<-|Hx]; [now apply digit_in|auto]. }
        split; [assumption|]. split; [reflexivity|]. right. now split.
      * intros H. apply number_spec in H. destruct H as (m & r' & Hm & Hr & H & [Hb|Hb]); [discriminate|].
        apply fraction_spec in Hr. destruct Hr as (f & e & Hf & He & ->). exists "", m, f, e.
        split; [now left|]. split; [assumption|]. split; [assumption|]. split; [assumption|]. split; [assumption|now left].
  - intros (sg & m & f & e & Hs & Hm & Hf & He & E & H).
    assert (F : fraction (f ++ e) = true) by (apply fraction_spec; now exists f, e).
    assert (D : forall c r, m = String c r -> digit c = true) by (intros c r ->; apply digit_in, Hm; now left).
    assert (N : m <> "" -> number false (m ++ "." ++ f ++ e) = KFloat).
    { intros Hn. apply number_spec. exists m, (f ++ e). now repeat split; [..|right]. }
    cbn in Hs. destruct Hs as [<-|[<-|[<-|[]]]].
    + destruct m as [|c m].
      * destruct H as [H|[_ H]]; [tauto|]. destruct f as [|d f]; [tauto|]. cbn [append] in E, F. subst s.
        assert (Dd : digit d = true) by (apply digit_in, Hf; now left). cbn [fraction] in F. rewrite Dd in F.
        unfold scalar. rewrite starts_word by reflexivity. change (is_sign ".") with false. cbn [Ascii.eqb Bool.eqb]. now rewrite Dd, F.
      * specialize (D c m eq_refl). rewrite !app_cons in E. cbn [append] in E. subst s.
        rewrite scalar_digit by assumption. specialize (N ltac:(discriminate)). cbn [append number] in N. rewrite D in N. exact N.
    + destruct H as [H|[H _]]; [|discriminate]. subst s. unfold scalar. cbn [append]. rewrite starts_word by reflexivity.
      change (is_sign "-") with true. cbv iota. now apply N.
    + destruct H as [H|[H _]]; [|discriminate]. subst s. unfold scalar. cbn [append]. rewrite starts_word by reflexivity.
      change (is_sign "+") with true. cbv iota. now apply N.
Qed.
Print Assumptions C77_float.
Theorem C77_int : forall s, scalar s = KInt <-> exists sg m, sign sg /\ decimal m /\ m <> "" /\ s = sg ++ m.
Proof.
  intros s. split.
  - unfold scalar. destruct (existsb (String.eqb s) words) eqn:W; [discriminate|]. destruct s as [|c r]; [discriminate|].
    destruct (is_sign c) eqn:S.
    + intros H. apply number_spec in H. destruct H as (Hm & [Hb|Hb]); [discriminate|]. exists (String c ""), r.
      repeat split; try assumption. apply is_sign_in in S. unfold sign. destruct S as [-> | ->]; cbn; tauto.
    + destruct ((c =? ".")%char) eqn:E.
      * destruct r as [|d r]; [discriminate|]. destruct (digit d && fraction r); discriminate.
      * intros H. apply number_spec in H. destruct H as (Hm & _). exists "", (String c r). repeat split; [now left|assumption|discriminate].
  - intros (sg & m & Hs & Hm & Hn & ->).
    assert (N : number false m = KInt) by (apply number_spec; split; [assumption|now right]).
    cbn in Hs. destruct Hs as [<-|[<-|[<-|[]]]].
    + destruct m as [|c m]; [tauto|]. assert (D : digit c = true) by (apply digit_in, Hm; now left).
      cbn [append]. rewrite scalar_digit by assumption. cbn [number] in N. now rewrite D in N.
    + unfold scalar. cbn [append]. rewrite starts_word by reflexivity. exact N.
    + unfold scalar. cbn [append]. rewrite starts_word by reflexivity. exact N.
Qed.
Print Assumptions C77_int.
Example C77_number_ex : map scalar ["-12.5e+3"; ".5"; "-.5"; "1.e5"; "+7"; "1e5"; "."; "5."; "2.0E-6"] =
  [KFloat; KFloat; KString; KString; KInt; KString; KString; KFloat; KFloat].
Proof. reflexivity. Qed.

Definition readable (l : line) (r : read) : bool := accepts (wants r) (scalar (text l)).
Fixpoint check_values (reads : list read) (bad : list string) (file : list line) : bool :=
  match file with
  | [] => true
  | l :: b => (in_paths (parts "" (key l)) (map (fun x => parts "" (key x)) b) ||
      forallb (fun r => negb (path_eqb (target [] r) (parts "" (key l))) || eqb (readable l r) (negb (existsb (String.eqb (key l)) bad))) reads) &&
      check_values reads bad b
  end.
Lemma check_values_sound reads bad file : forallb private reads = true -> forallb relative file = true ->
  check_values reads bad file = true -> forall node prior a l b r, file = (a ++ l :: b)%list -> In r reads ->
  target node r = resolve node (key l) -> ~ without_effect node reads a l b ->
  (In (key l) bad -> gets node prior file r = None) /\ (~ In (key l) bad -> gets node prior file r = Some (text l)).
Proof.
  intros Hp Hrel Hc node prior a l b r Hf Hr Ht Hw.
  rewrite C77_without_effect in Hw. rewrite forallb_forall in Hp, Hrel.
  assert (Hb : ~ In (resolve node (key l)) (map (fun x => resolve node (key x)) b)) by tauto.
  assert (Hl : check_values reads bad (l :: b) = true).
  { subst. clear -Hc. induction a as [|x a IH]; [assumption|]. cbn [app check_values] in Hc. apply andb_true_iff in Hc. now apply IH. }
  assert (Rl : relative l = true) by (apply Hrel; subst; apply in_elt).
  cbn [check_values] in Hl. apply andb_true_iff in Hl. destruct Hl as [Hl _]. apply orb_true_iff in Hl. destruct Hl as [Hl|Hl].
  { exfalso. apply Hb. apply in_paths_in in Hl. rewrite in_map_iff in *. destruct Hl as (x & E & Hx). exists x. split; [|assumption].
    rewrite !resolve_relative, E; [reflexivity|assumption|]. apply Hrel. subst. apply in_or_app. right. now right. }
  rewrite forallb_forall in Hl. specialize (Hl r Hr).
  rewrite target_private, resolve_relative in Ht by auto. apply app_inv_head in Ht.
  rewrite Ht in Hl. assert (path_eqb (parts "" (key l)) (parts "" (key l)) = true) as Q by now apply path_eqb_eq.
  rewrite Q in Hl. cbn [negb orb] in Hl. apply eqb_prop in Hl. rewrite Hf.
  rewrite C77_read; [|now rewrite target_private, Ht, resolve_relative by auto|assumption].
  unfold readable in Hl. rewrite Hl. split; intros H.
  - apply existsb_string in H. now rewrite H.
  - rewrite <- existsb_string in H. apply not_true_iff_false in H. now rewrite H.
Qed.

(** Every line with an effect is read as written, but for a few values of the wrong type, in place of
    which the defaults stay.  Those of the pose sensor's file are the bias noises. *)
Definition values_read (reads : list read) (file : list line) (bad : list string) : Prop :=
  forall node prior a l b r, file = (a ++ l :: b)%list -> In r reads -> target node r = resolve node (key l) ->
  ~ without_effect node reads a l b ->
  (In (key l) bad -> gets node prior file r = None) /\ (~ In (key l) bad -> gets node prior file r = Some (text l)).
Theorem C77_values :
  values_read pose_reads pose_file ["core/core_noise_accbias"; "core/core_noise_gyrbias"] /\
  values_read position_reads position_file ["core/core_fixed_bias"] /\
  values_read pose_pressure_reads pose_pressure_file [] /\
  values_read position_pose_reads position_pose_file ["position_sensor/init/p_ip/x"; "position_sensor/init/p_ip/y"].
Proof.
  unfold values_read. repeat split; intros; eapply check_values_sound; try eassumption; vm_compute; reflexivity.
Qed.
Print Assumptions C77_values.

Lemma nth_split_file (file : list line) n l : nth_error file n = Some l -> file = (firstn n file ++ l :: skipn (S n) file)%list.
Proof.
  revert n. induction file as [|x file IH]; intros [|n] H; try discriminate; cbn in *; [congruence|]. f_equal. now apply IH.
Qed.
Lemma read_at node prior file n l r : nth_error file n = Some l -> private r = true -> forallb relative file = true ->
  target [] r = parts "" (key l) -> in_paths (parts "" (key l)) (map (fun x => parts "" (key x)) (skipn (S n) file)) = false ->
  gets node prior file r = if accepts (wants r) (scalar (text l)) then Some (text l) else None.
Proof.
  intros Hn Hp Hrel Ht Hb. rewrite forallb_forall in Hrel. pose proof (nth_split_file _ _ _ Hn) as Hf. rewrite Hf.
  assert (Rl : relative l = true) by (apply Hrel; rewrite Hf; apply in_elt).
  apply C77_read; rewrite (resolve_relative node l Rl); [now rewrite target_private, Ht|].
  intros H. apply not_true_iff_false in Hb. apply Hb. apply in_paths_in. rewrite in_map_iff in *.
  destruct H as (x & E & Hx). exists x. split; [|assumption]. rewrite resolve_relative in E; [now apply app_inv_head in E|].
  apply Hrel. rewrite Hf. apply in_or_app. right. now right.
Qed.

(** So the accelerometer bias noise of 8e-5 given for the pose sensor is not used. *)
Theorem C77_bias_noise_refuted : In (Line "core/core_noise_accbias" "8e-5") pose_file /\
  forall node prior,
  gets node prior pose_file (Read "~core" "core_noise_acc" WDouble) = Some "0.0022563" /\
  gets node prior pose_file (Read "~core" "core_noise_gyr" WDouble) = Some "0.0004" /\
  gets node prior pose_file (Read "~core" "core_noise_accbias" WDouble) = None /\
  gets node prior pose_file (Read "~core" "core_noise_gyrbias" WDouble) = None.
Proof.
  split; [do 4 right; left; reflexivity|]. intros node prior. repeat split.
  - now rewrite (read_at node prior pose_file 1 (Line "core/core_noise_acc" "0.0022563")) by (vm_compute; reflexivity).
  - now rewrite (read_at node prior pose_file 2 (Line "core/core_noise_gyr" "0.0004")) by (vm_compute; reflexivity).
  - now rewrite (read_at node prior pose_file 4 (Line "core/core_noise_accbias" "8e-5")) by (vm_compute; reflexivity).
  - now rewrite (read_at node prior pose_file 5 (Line "core/core_noise_gyrbias" "3e-6")) by (vm_compute; reflexivity).
Qed.
Print Assumptions C77_bias_noise_refuted.

(** All four files ask for the playback of recorded data and no node is told. *)
Theorem C77_playback_refuted : forall f, In f [(pose_file, pose_reads); (position_file, position_reads);
    (pose_pressure_file, pose_pressure_reads); (position_pose_file, position_pose_reads)] ->
  In (Line "data_playback" "true") (fst f) /\ In (Read "~core" "data_playback" WBool) (snd f) /\
  forall node, gets node [] (fst f) (Read "~core" "data_playback" WBool) = None.
Proof.
  assert (K : forall file node, forallb relative file = true -> in_paths ["core"; "data_playback"] (map (fun x => parts "" (key x)) file) = false ->
    gets node [] file (Read "~core" "data_playback" WBool) = None).
  { intros file node Hrel H. unfold gets, reading. rewrite target_private by reflexivity.
    change (target [] (Read "~core" "data_playback" WBool)) with ["core"; "data_playback"].
    assert (E : lookup ([] ++ load node file)%list (node ++ ["core"; "data_playback"])%list = None); [|now rewrite E].
    apply lookup_none. cbn [app]. rewrite load_names. intros Hi. apply not_true_iff_false in H. apply H. apply in_paths_in.
    rewrite in_map_iff in *. destruct Hi as (x & E & Hx). exists x. split; [|assumption].
    rewrite forallb_forall in Hrel. rewrite resolve_relative in E by auto. now apply app_inv_head in E. }
  intros f Hf. repeat (destruct Hf as [<-|Hf]; [split; [vm_compute; tauto|split; [left; reflexivity|intros node; apply K; vm_compute; reflexivity]]|]).
  destruct Hf.
Qed.
Print Assumptions C77_playback_refuted.

(** *** The file for the Vicon system has global names: they are those of a node called /pose_sensor *)
Definition global_ok (k t : path) : bool :=
  negb (path_eqb t (skipn (length k - length t) k)) || negb (length t <=? length k)%nat ||
  path_eqb (firstn (length k - length t) k) ["pose_sensor"].
Lemma global_sound node t k : global_ok k t = true -> (node ++ t)%list = k -> node = ["pose_sensor"].
Proof.
  intros H <-. unfold global_ok in H. rewrite app_length in H.
  replace (length node + length t - length t) with (length node) in H by lia.
  rewrite skipn_app, skipn_all, Nat.sub_diag, firstn_app, firstn_all, Nat.sub_diag, app_nil_r in H. cbn [skipn firstn app] in H.
  assert (path_eqb t t = true) as P by now apply path_eqb_eq. rewrite P in H.
  assert ((length t <=? length node + length t)%nat = true) as Q by (apply Nat.leb_le; lia). rewrite Q in H. cbn [negb orb] in H.
  now apply path_eqb_eq.
Qed.
Definition global (l : line) : bool := match key l with String c _ => (c =? "/")%char | "" => false end.
Lemma resolve_global node l : global l = true -> resolve node (key l) = parts "" (key l).
Proof. unfold global, resolve. destruct (key l) as [|c s]; [discriminate|]. now intros ->. Qed.

Theorem C77_viconpos_file : forall node a l b, viconpos_file = (a ++ l :: b)%list ->
  (without_effect node pose_reads a l b <->
   node <> ["pose_sensor"] \/ In (key l) ["/pose_sensor/core/fixed_bias"; "/pose_sensor/pose_sensor/fixed_scale"]).
Proof.
  intros node a l b Hf.
  assert (Hg : forallb global viconpos_file = true) by (vm_compute; reflexivity).
  assert (Hp : forallb private pose_reads = true) by (vm_compute; reflexivity).
  rewrite forallb_forall in Hg, Hp.
  assert (Hl : In l viconpos_file) by (rewrite Hf; apply in_elt).
  rewrite C77_without_effect, (resolve_global node l) by auto. split.
  - intros H. destruct (list_eq_dec string_dec node ["pose_sensor"]) as [->|]; [right|now left].
    assert (C : forallb (fun x => existsb (fun r => path_eqb (target ["pose_sensor"] r) (parts "" (key x))) pose_reads ||
      existsb (String.eqb (key x)) ["/pose_sensor/core/fixed_bias"; "/pose_sensor/pose_sensor/fixed_scale"]) viconpos_file = true) by (vm_compute; reflexivity).
    rewrite forallb_forall in C. specialize (C l Hl). apply orb_true_iff in C. destruct C as [C|C]; [|now apply existsb_string].
    exfalso. destruct H as [H|H].
    + apply existsb_exists in C. destruct C as (r & Hr & E). apply path_eqb_eq in E. now apply (H r).
    + assert (D : NoDup (map (fun x => parts "" (key x)) viconpos_file)).
      { assert (N : forall q : list path, (fix nd q := match q with [] => true | x :: q' => negb (in_paths x q') && nd q' end) q = true -> NoDup q).
        { induction q as [|x q IH]; intros N; [constructor|]. apply andb_true_iff in N. destruct N as [N1 N2]. constructor; [|now apply IH].
          rewrite <- in_paths_in. now destruct (in_paths x q). }
        apply N. vm_compute. reflexivity. }
      rewrite Hf, map_app in D. cbn [map] in D. apply NoDup_remove_2 in D. apply D. apply in_or_app. right.
      rewrite in_map_iff in *. destruct H as (x & E & Hx). exists x. split; [|assumption].
      rewrite resolve_global in E; [assumption|]. apply Hg. rewrite Hf. apply in_or_app. right. now right.
  - intros H. left. intros r Hr Ht. rewrite target_private in Ht by auto.
    assert (C : forallb (fun x => forallb (fun t => global_ok (parts "" (key x)) t) (map (target []) pose_reads)) viconpos_file = true) by (vm_compute; reflexivity).
    rewrite forallb_forall in C. specialize (C l Hl). rewrite forallb_forall in C.
    specialize (C _ (in_map (target []) _ _ Hr)). apply (global_sound node) in C; [|assumption].
    destruct H as [H|H]; [now apply H|]. subst node. rewrite <- target_private in Ht by auto.
    assert (B : forallb (fun k => forallb (fun r => negb (path_eqb (target ["pose_sensor"] r) (parts "" k))) pose_reads)
      ["/pose_sensor/core/fixed_bias"; "/pose_sensor/pose_sensor/fixed_scale"] = true) by (vm_compute; reflexivity).
    rewrite forallb_forall in B. specialize (B _ H). rewrite forallb_forall in B. specialize (B _ Hr).
    apply negb_true_iff, path_eqb_neq in B. now apply B.
Qed.
Print Assumptions C77_viconpos_file.

(** *** The launch files *)

(** The one for the Vicon system starts the node under another name, so nothing of its file is read;
    the one for aslam loads a file that is not there. *)
Theorem C77_launch_refuted :
  (exists x file, In x launches /\ shipped (loads x) = Some file /\ file <> [] /\
     forall a l b, file = (a ++ l :: b)%list -> without_effect [node_name x] (reads_of (program x)) a l b) /\
  (exists x, In x launches /\ shipped (loads x) = None).
Proof.
  split.
  - exists (Launch "msf_viconpos_sensor" "pose_sensor" "viconpos_sensor_fix.yaml"), viconpos_file.
    split; [do 5 right; left; reflexivity|]. split; [reflexivity|]. split; [discriminate|].
    intros a l b H. apply C77_viconpos_file; [assumption|]. left. discriminate.
  - exists (Launch "pose_sensor" "pose_sensor" "aslam_sensor_fix.yaml"). split; [do 4 right; left; reflexivity|reflexivity].
Qed.
Print Assumptions C77_launch_refuted.

(** *** Topics *)

(** The remapping [l]: whatever topic is written, the node is connected to the same ones. *)
Definition remap_without_effect (ns : path) (topics : list topic) (a : list line) (l : line) (b : list line) : Prop :=
  forall to t, In t topics -> connected ns (a ++ Line (key l) to :: b)%list t = connected ns (a ++ l :: b)%list t.

Theorem C77_remap : forall ns topics a l b,
  remap_without_effect ns topics a l b <->
  (forall t, In t topics -> resolved ns t <> resolve ns (key l)) \/ In (resolve ns (key l)) (map (fun x => resolve ns (key x)) b).
Proof.
  intros ns topics a l b. pose proof (lookup_line ns [] a) as L. cbn [app] in L. split.
  - intros H. destruct (in_dec (list_eq_dec string_dec) (resolve ns (key l)) (map (fun x => resolve ns (key x)) b)) as [|Hb]; [now right|].
    left. intros t Ht E. rewrite <- load_names in Hb. apply lookup_none in Hb.
    pose proof (H "/a" t Ht) as H1. pose proof (H "/b" t Ht) as H2. rewrite <- H2 in H1.
    unfold connected in H1. rewrite !L, E, Hb in H1. cbn [key text] in H1.
    assert (path_eqb (resolve ns (key l)) (resolve ns (key l)) = true) as Q by now apply path_eqb_eq. rewrite Q in H1. discriminate.
  - intros H to t Ht. unfold connected. rewrite !L. cbn [key text].
    destruct (path_eqb (resolve ns (key l)) (resolved ns t)) eqn:E; [|reflexivity].
    apply path_eqb_eq in E. destruct H as [H|H]; [exfalso; now apply (H t Ht)|].
    destruct (lookup (load ns b) (resolved ns t)) eqn:F; [reflexivity|].
    exfalso. apply lookup_none in F. rewrite load_names, <- E in F. tauto.
Qed.
Print Assumptions C77_remap.

Definition topic_relative (t : topic) : bool :=
  match fst t with String c _ => negb (c =? "/")%char | "" => false end && match snd t with String c _ => negb (c =? "/")%char | "" => false end.
Lemma resolved_relative ns t : topic_relative t = true -> resolved ns t = (ns ++ resolved [] t)%list.
Proof.
  unfold topic_relative, resolved, resolve. intros H. apply andb_true_iff in H. destruct H as [H1 H2].
  destruct (fst t) as [|c s]; [discriminate|]. destruct (c =? "/")%char; [discriminate|].
  destruct (snd t) as [|d u]; [discriminate|]. destruct (d =? "/")%char; [discriminate|]. rewrite app_assoc. reflexivity.
Qed.

(** Of the remappings in the launch files, in any namespace, the only one without effect is that of the
    position input of the distortion node: its topic is called point_input. *)
Theorem C77_launch_remaps : forall ns p remaps a l b, In (p, remaps) remappings -> remaps = (a ++ l :: b)%list ->
  (remap_without_effect ns (topics_of p) a l b <-> key l = "msf_distort/position_input").
Proof.
  intros ns p remaps a l b Hin Hf. rewrite C77_remap.
  assert (C : forallb (fun x => forallb topic_relative (topics_of (fst x)) && forallb relative (snd x) &&
    check (map (resolved []) (topics_of (fst x))) ["msf_distort/position_input"] (snd x)) remappings = true) by (vm_compute; reflexivity).
  rewrite forallb_forall in C. specialize (C _ Hin). cbn [fst snd] in C. apply andb_true_iff in C. destruct C as [C C3].
  apply andb_true_iff in C. destruct C as [C1 C2]. rewrite forallb_forall in C1, C2.
  assert (Hl : check (map (resolved []) (topics_of p)) ["msf_distort/position_input"] (l :: b) = true).
  { subst. clear -C3. induction a as [|x a IH]; [assumption|]. cbn [app check] in C3. apply andb_true_iff in C3. now apply IH. }
  cbn [check] in Hl. apply andb_true_iff in Hl. destruct Hl as [Hl _]. apply andb_true_iff in Hl. destruct Hl as [_ Hl].
  apply eqb_prop in Hl.
  assert (Rl : forall x, In x (l :: b) -> relative x = true) by (intros x Hx; apply C2; subst; apply in_or_app; now right).
  rewrite (resolve_relative ns l) by (apply Rl; now left).
  assert (E : map (fun x => resolve ns (key x)) b = map (fun x => ns ++ parts "" (key x))%list b).
  { apply map_ext_in. intros x Hx. apply resolve_relative, Rl. now right. }
  assert (K : key l = "msf_distort/position_input" <-> existsb (String.eqb (key l)) ["msf_distort/position_input"] = true).
  { rewrite existsb_string. cbn [In]. split; [intros ->; now left|intros [<-|[]]; reflexivity]. }
  rewrite K, <- Hl, orb_true_iff, in_paths_in, E.
  assert (M : In (ns ++ parts "" (key l))%list (map (fun x => ns ++ parts "" (key x))%list b) <->
              In (parts "" (key l)) (map (fun x => parts "" (key x)) b)).
  { rewrite !in_map_iff. split; intros (x & H1 & H2); exists x; (split; [|assumption]).
    - now apply app_inv_head in H1.
    - now rewrite H1. }
  rewrite M. apply or_iff_compat_r. rewrite negb_true_iff, <- not_true_iff_false, in_paths_in, in_map_iff. split.
  - intros H (t & E1 & E2). apply (H t E2). rewrite resolved_relative by auto. now rewrite E1.
  - intros H t Ht Hq. apply H. exists t. split; [|assumption]. rewrite resolved_relative in Hq by auto. now apply app_inv_head in Hq.
Qed.
Print Assumptions C77_launch_remaps.

(** In the position-pose node both handlers subscribe to the same topic of transforms, however it is
    remapped: every transform counts as a pose and once more as a position.  The topics of the other
    nodes are distinct. *)
Theorem C77_shared_topic_refuted : forall ns remaps, exists t t', In t pose_topics /\ In t' position_topics /\
  connected ns remaps t = connected ns remaps t'.
Proof.
  intros ns remaps. exists ("msf_updates/", "transform_input"), ("msf_updates/", "transform_input").
  split; [right; left; reflexivity|]. split; [right; left; reflexivity|reflexivity].
Qed.
Print Assumptions C77_shared_topic_refuted.
Theorem C77_distinct_topics : forall ns p, In p ["pose_sensor"; "position_sensor"; "pose_pressure_sensor"; "msf_distort"] ->
  NoDup (map (connected ns []) (topics_of p)).
Proof.
  assert (N : forall q : list path, (fix nd q := match q with [] => true | x :: q' => negb (in_paths x q') && nd q' end) q = true -> NoDup q).
  { induction q as [|x q IH]; intros N; [constructor|]. apply andb_true_iff in N. destruct N as [N1 N2]. constructor; [|now apply IH].
    rewrite <- in_paths_in. now destruct (in_paths x q). }
  intros ns p Hp.
  assert (R : forallb topic_relative (topics_of p) = true /\ NoDup (map (resolved []) (topics_of p))).
  { repeat (destruct Hp as [<-|Hp]; [split; [vm_compute; reflexivity|apply N; vm_compute; reflexivity]|]). destruct Hp. }
  destruct R as [R D]. rewrite forallb_forall in R.
  assert (E : map (connected ns []) (topics_of p) = map (app ns) (map (resolved []) (topics_of p))).
  { rewrite map_map. apply map_ext_in. intros t Ht. unfold connected. cbn. apply resolved_relative. auto. }
  rewrite E. apply Coq.Logic.FinFun.Injective_map_NoDup; [|assumption]. intros x y. apply app_inv_head.
Qed.
Print Assumptions C77_distinct_topics.

(** The pose node as launched: a setting that is read, one of the wrong type, one nobody reads. *)
Example C77_ex :
  gets ["msf_pose_sensor"] [(["msf_pose_sensor"; "pose_sensor"; "pose_delay"], "0.5")] pose_file (Read "~/pose_sensor" "pose_delay" WDouble) = Some "0.02" /\
  gets ["msf_pose_sensor"] [] pose_file (Read "~core" "core_noise_accbias" WDouble) = None /\
  gets ["msf_pose_sensor"] [] pose_file (Read "~core" "data_playback" WBool) = None /\
  (exists a l b, pose_file = (a ++ l :: b)%list /\ without_effect ["msf_pose_sensor"] pose_reads a l b) /\
  exists a l b, pose_file = (a ++ l :: b)%list /\ ~ without_effect ["msf_pose_sensor"] pose_reads a l b.
Proof.
  split; [vm_compute; reflexivity|]. split; [vm_compute; reflexivity|]. split; [vm_compute; reflexivity|]. split.
  - exists [], (nth 0 pose_file (Line "" "")), (skipn 1 pose_file). split; [reflexivity|].
    apply C77_pose_file; [reflexivity|now left].
  - exists (firstn 1 pose_file), (nth 1 pose_file (Line "" "")), (skipn 2 pose_file). split; [reflexivity|].
    rewrite C77_pose_file by reflexivity. intros [H|[]]. discriminate.
Qed.
