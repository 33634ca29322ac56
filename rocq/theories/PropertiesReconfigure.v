(** C68: reconfiguration requests. *)

From Coq Require Import Reals ZArith Lra Lia List.
From mathcomp Require Import all_ssreflect all_algebra.
From Verif Require Import Outcome SortedContainer Core CoreBasics Geom StateList Propagate ProcNoise Cov RField Sensors Filter Readings
  Handlers Messages PropertiesFilter Node NodeProofs PropertiesNode Reconfigure.
Import ListNotations.

Set Implicit Arguments.
Unset Strict Implicit.
Unset Printing Implicit Defensive.

(** ** Ranges *)

(** A value outside the range is replaced by the nearest one inside. *)
Theorem C68_clamp lo hi x : Rle lo hi ->
  [/\ Rle lo (clamp lo hi x), Rle (clamp lo hi x) hi &
      forall z, Rle lo z -> Rle z hi -> Rle (Rabs (Rminus x (clamp lo hi x))) (Rabs (Rminus x z))].
Proof.
move=> h; rewrite /clamp; case: (Rlt_dec hi x) => h1; case: Rlt_dec => h2 /=; try (exfalso; lra); split; try lra.
- move=> z h3 h4; rewrite !Rabs_pos_eq; lra.
- move=> z h3 h4; rewrite !Rabs_left1; lra.
- by move=> z _ _; rewrite Rminus_diag_eq // Rabs_R0; apply: Rabs_pos.
Qed.
Print Assumptions C68_clamp.

Lemma clamp_id lo hi x : Rle lo x -> Rle x hi -> clamp lo hi x = x.
Proof. by move=> h1 h2; rewrite /clamp; case: (Rlt_dec hi x) => h3; case: Rlt_dec => h4 //=; move: h3 h4 => /= *; lra. Qed.
Lemma clampZ_in lo hi x : Z.le lo hi -> Z.le lo (clampZ lo hi x) /\ Z.le (clampZ lo hi x) hi.
Proof. by rewrite /clampZ => h; case: (Z.ltb_spec hi x) => h1; case: Z.ltb_spec => h2; lia. Qed.
Lemma clampZ_id lo hi x : Z.le lo x -> Z.le x hi -> clampZ lo hi x = x.
Proof. by rewrite /clampZ => h1 h2; case: (Z.ltb_spec hi x) => h3; case: Z.ltb_spec => h4; lia. Qed.

(** The documented ranges: noises up to 10, delays up to two seconds, yaw up to 180 degrees. *)
Definition noise_range (x : R) : Prop := Rle R0 x /\ Rle x (IZR 10).
Definition delay_range (t : Z) : Prop := Z.le (-2000000000) t /\ Z.le t 2000000000.
Definition ranged (y : dynamic) : Prop :=
  [/\ noise_range (y_zp y) /\ noise_range (y_zq y), noise_range (y_pos y) /\ noise_range (y_press y),
      noise_range (y_angle y) /\ noise_range (y_dist y),
      (delay_range (y_pose_delay y) /\ delay_range (y_pos_delay y)) /\ (delay_range (y_angle_delay y) /\ delay_range (y_dist_delay y)) &
      Rle (IZR (-180)) (y_yaw y) /\ Rle (y_yaw y) (IZR 180)].
Definition ranged_params (q : params) : Prop :=
  [/\ ranged (q_dyn q), Rle (Rdiv (IZR 1) (IZR 1000)) (q_scale q) /\ Rle (q_scale q) (IZR 30) &
      Rle (Rdiv (IZR 1) (IZR 10)) (q_height q) /\ Rle (q_height q) (IZR 20)].

Lemma clamp_noise_in x : noise_range (clamp_noise x).
Proof. by have [] := @C68_clamp R0 (IZR 10) x; first lra. Qed.
Lemma clamp_delay_in t : delay_range (clamp_delay t).
Proof. exact: clampZ_in. Qed.
Lemma clamp_dynamic_in y : ranged (clamp_dynamic y).
Proof.
split; rewrite /=; try (split; exact: clamp_noise_in).
- by split; split; exact: clamp_delay_in.
- by have [] := @C68_clamp (IZR (-180)) (IZR 180) (y_yaw y); first lra.
Qed.
Lemma clamp_params_in q : ranged_params (clamp_params q).
Proof.
split; rewrite /=; first exact: clamp_dynamic_in.
- by have [] := @C68_clamp (Rdiv (IZR 1) (IZR 1000)) (IZR 30) (q_scale q); first lra.
- by have [] := @C68_clamp (Rdiv (IZR 1) (IZR 10)) (IZR 20) (q_height q); first lra.
Qed.
Lemma clamp_dynamic_id y : ranged y -> clamp_dynamic y = y.
Proof.
rewrite /ranged /noise_range /delay_range; case: y => zp zq d1 b1 b2 b3 b4 b5 pos d2 b6 press ang d3 dist d4 yaw /=.
case=> [[[h1 h2] [h3 h4]] [[h5 h6] [h7 h8]] [[h9 h10] [h11 h12]] [[[h13 h14] [h15 h16]] [[h17 h18] [h19 h20]]] [h21 h22]].
by rewrite /clamp_dynamic /clamp_noise /clamp_delay /clamp_yaw /= !clamp_id // !clampZ_id.
Qed.
Lemma dynamic_new_in : ranged dynamic_new.
Proof. by split; rewrite /= /noise_range /delay_range; repeat split; try lia; try lra. Qed.

(** Messages come from topics and services; the callback is called by the server only. *)
Definition direct (m : message) : Prop := match m with Msg (IConfig _ _ _) => False | _ => True end.
Definition ranged_input (i : input) : Prop :=
  match i with
  | IConfig y init height =>
    [/\ ranged y, (forall t x, init = Some (t, x) -> x = R1 \/ Rle (Rdiv (IZR 1) (IZR 1000)) x /\ Rle x (IZR 30)) &
        (forall t z, height = Some (t, z) -> Rle (Rdiv (IZR 1) (IZR 10)) z /\ Rle z (IZR 20))]
  | _ => True
  end.

Section Server.
Variables (k : kind) (r : process) (S : settings).
Let F := filter (dim k) (config_of k r).

(** What the callback is called with. *)
Definition callback_input (all : bool) (old new : params) (now now' : Z) : input :=
  IConfig (q_dyn new)
    (if (all || (q_init old != q_init new)) && q_init new then Some (now, if has_pose k then q_scale new else R1) else None)
    (if has_pose k && (all || (q_set old != q_set new)) && q_set new then Some (now', q_height new) else None).
Lemma callback_ranged all old new now now' : ranged_params new -> ranged_input (callback_input all old new now now').
Proof.
case=> h1 h2 h3; split=> // t x.
- by case: ifP => // _ [_ <-]; case: has_pose; [right|left].
- by case: ifP => // _ [_ <-].
Qed.
Lemma call_back_step all old new now now' f q' f' cs : call_back k r S all old new now now' f = Ok (q', f', cs) ->
  front_step k r S f (callback_input all old new now now') = Ok (f', cs) /\
  [/\ q_dyn q' = q_dyn new, q_scale q' = q_scale new, q_height q' = q_height new,
      q_init q' = (if (all || (q_init old != q_init new)) && q_init new then false else q_init new) &
      q_set q' = (if has_pose k && (all || (q_set old != q_set new)) && q_set new && ~~ no_position (f_h f) then false else q_set new)].
Proof.
rewrite /call_back -/(callback_input all old new now now').
by case e: (front_step _ _ _ _ _) => [[f1 cs1]| |] //= -[<- <- <-]; split.
Qed.

(** The input of the front that a message leads to. *)
Definition input_of (q : params) (m : message) : input :=
  match m with
  | Req n => callback_input false q (clamp_params (merge q n)) (n_now n) (n_now' n)
  | Msg i => i
  end.
Lemma serve_step q f m q' f' cs : serve k r S q f m = Ok (q', f', cs) ->
  front_step k r S f (input_of q m) = Ok (f', cs) /\
  match m with Req n => ranged_params q' | Msg _ => q' = q end.
Proof.
case: m => [n|i] /=.
- move/call_back_step=> [h [e1 e2 e3 _ _]]; split=> //.
  have [h1 h2 h3] := clamp_params_in (merge q n); by split; rewrite ?e1 ?e2 ?e3.
- by case e: (front_step _ _ _ _ _) => [[f1 cs1]| |] //= -[<- <- <-].
Qed.
Lemma input_of_ranged q m : direct m -> ranged_input (input_of q m).
Proof. by case: m => [n _|[]] //; apply: callback_ranged; exact: clamp_params_in. Qed.

(** A node with its server is a node that is only configured within the ranges. *)
Lemma session_inputs q f l q' f' css : List.Forall direct l -> session k r S q f l = Ok (q', f', css) ->
  exists l', [/\ List.Forall ranged_input l', length l' = length l,
    (forall P : input -> Prop, List.Forall (fun m => match m with Msg i => P i | Req _ => True end) l ->
       (forall y i h, ranged_input (IConfig y i h) -> P (IConfig y i h)) -> List.Forall P l') &
    forall d c c' ev, run F d c (List.concat css) = Ok (c', ev) -> node_run S d f c l' = Ok (f', c', ev)].
Proof.
elim: l q f q' f' css => [|m l IH] q f q' f' css hd /=.
  by case=> _ <- <-; exists [::]; split=> // d c c' ev /= [<- <-].
have [hm hl] : direct m /\ List.Forall direct l by inversion hd.
case e1: (serve _ _ _ _ _) => [[[q1 f1] cs]| |] //=.
case e2: (session _ _ _ _ _) => [[[q2 f2] css1]| |] //= -[_ <- <-].
have [l' [h1 h2 h3 h4]] := IH _ _ _ _ _ hl e2; have [e3 _] := serve_step e1.
exists (input_of q m :: l'); split=> /=.
- by constructor=> //; exact: input_of_ranged.
- by rewrite h2.
- move=> P hP hc; have [p1 p2] : match m with Msg i => P i | Req _ => True end /\
    List.Forall (fun m => match m with Msg i => P i | Req _ => True end) l by inversion hP.
  constructor; last exact: h3.
  have hr := input_of_ranged q hm; case: m p1 hr {hm hd e1 e3 hP} => //= n _; exact: hc.
- move=> d c c' ev; rewrite e3 /= run_app.
  case er: (run _ _ _ _) => [[c1 ev1]| |] //=; case er2: (run _ _ _ _) => [[c2 ev2]| |] //= -[<- <-].
  by rewrite (h4 _ _ _ _ er2).
Qed.

Lemma life_inputs q now now' l q' f' css : List.Forall direct l -> life k r S q now now' l = Ok (q', f', css) ->
  exists l', [/\ List.Forall ranged_input l', length l' = (length l).+1,
    (forall P : input -> Prop, List.Forall (fun m => match m with Msg i => P i | Req _ => True end) l ->
       (forall y i h, ranged_input (IConfig y i h) -> P (IConfig y i h)) -> List.Forall P l') &
    forall d c c' ev, run F d c (List.concat css) = Ok (c', ev) -> node_run S d front_new c l' = Ok (f', c', ev)].
Proof.
move=> hd; rewrite /life /server_start.
case e1: (call_back _ _ _ _ _ _ _) => [[[q1 f1] cs]| |] //=.
case e2: (session _ _ _ _ _) => [[[q2 f2] css1]| |] //= -[_ <- <-].
have [l' [h1 h2 h3 h4]] := session_inputs hd e2; have [e3 _] := call_back_step e1.
have hr : ranged_input (callback_input true (clamp_params q) (clamp_params q) now now').
  by apply: callback_ranged; exact: clamp_params_in.
exists (callback_input true (clamp_params q) (clamp_params q) now now' :: l'); split.
- by constructor.
- by rewrite /= h2.
- by move=> P hP hc; constructor; [exact: hc|exact: h3].
- move=> d c c' ev; cbn [node_run List.concat]; rewrite e3; cbn [bind]; rewrite run_app.
  case er: (run _ _ _ _) => [[c1 ev1]| |] //=; case er2: (run _ _ _ _) => [[c2 ev2]| |] //= -[<- <-].
  by rewrite (h4 _ _ _ _ er2).
Qed.

(** Settings in force *)
Lemma keep_ranged y y' : ranged y -> ranged y' -> ranged (keep_noise y y').
Proof.
case=> [[? ?] [? ?] [? ?] [[? ?] [? ?]] ?] [[? ?] [? ?] [? ?] [[? ?] [? ?]] ?].
by split=> //=.
Qed.
Lemma delay_ranged y : ranged y -> ranged (no_delay k y).
Proof. by case: k => // -[? ? ? [[? ?] [? ?]] ?]; split=> //=; split=> //; split=> //; rewrite /delay_range; lia. Qed.
Lemma front_ranged f i f' cs : ranged_input i -> ranged (f_dyn f) -> front_step k r S f i = Ok (f', cs) -> ranged (f_dyn f').
Proof.
case: i => [seq a g t|msg a g t|m|m|m|m|m|y init height|now x|now x]; last 2 first.
- by move=> _ hf /scale_calls [-> _].
- by move=> _ hf /height_calls [-> _].
all: move=> /= hi hf.
- by case: imu_watch => [last| |] //= -[<- _].
- by case: state_callback => [[x taken]| |] //= -[<- _].
- by case: (has_pose k) => /=; [case: pose_callback => [[p o]| |] //= -[<- _]|case=> <- _].
- by case: (has_pos k) => /=; [case: pos_callback => [[p o]| |] //= -[<- _]|case=> <- _].
- by case: (has_press k) => /=; [case: press_callback => [[p o]| |] //= -[<- _]|case=> <- _].
- by case: (has_sph k) => /=; [case: angle_callback => [[p o]| |] //= -[<- _]|case=> <- _].
- by case: (has_sph k) => /=; [case: dist_callback => [[p o]| |] //= -[<- _]|case=> <- _].
- case: hi => h1 _ _; have h2 := delay_ranged h1; rewrite /on_config.
  case: (match init with Some _ => _ | None => _ end) => [c1| |] //=.
  case: height => [[now z]|]; last by case=> <- _.
  case: (~~ has_pose k) => /=; first by case=> <- _.
  case: ifP => _; first by case=> <- _ /=; case: (k) h2 => //= h2; exact: keep_ranged.
  by case: (if nonzero z then _ else _) => [c2| |] //= -[<- _].
Qed.
Lemma session_ranged q f l q' f' css : List.Forall direct l -> ranged_params q -> ranged (f_dyn f) ->
  session k r S q f l = Ok (q', f', css) -> ranged_params q' /\ ranged (f_dyn f').
Proof.
elim: l q f q' f' css => [|m l IH] q f q' f' css hd hq hf /=; first by case=> <- <- _.
have [hm hl] : direct m /\ List.Forall direct l by inversion hd.
case e1: (serve _ _ _ _ _) => [[[q1 f1] cs]| |] //=.
case e2: (session _ _ _ _ _) => [[[q2 f2] css1]| |] //= -[<- <- _].
have [e3 e4] := serve_step e1; apply: (IH _ _ _ _ _ hl _ _ e2).
- by case: m e4 {hm hd e1 e3} => // i ->.
- by apply: front_ranged hf e3; exact: input_of_ranged.
Qed.
End Server.

(** Whatever is requested, what the server keeps and what the handlers use lies within the
    ranges. *)
Theorem C68_ranges k r S q now now' l q' f css : List.Forall direct l ->
  @life k r S q now now' l = Ok (q', f, css) -> ranged_params q' /\ ranged (f_dyn f).
Proof.
move=> hd; rewrite /life /server_start.
case e1: (call_back _ _ _ _ _ _ _) => [[[q1 f1] cs]| |] //=.
case e2: (session _ _ _ _ _) => [[[q2 f2] css1]| |] //= -[<- <- _].
have [e3 [p1 p2 p3 _ _]] := call_back_step e1; have [h1 h2 h3] := clamp_params_in q.
apply: session_ranged hd _ _ e2; first by split; rewrite ?p1 ?p2 ?p3.
apply: (@front_ranged k r S front_new _ _ _ _ dynamic_new_in e3); apply: callback_ranged; exact: clamp_params_in.
Qed.
Print Assumptions C68_ranges.

(** Settings within the ranges are used as they are (except by the pose-pressure node, which has
    no delay and keeps its noises when it refuses a height). *)
Theorem C68_settings k r S q f n q' f' cs : k <> NPosePressure -> ranged (n_dyn n (q_dyn q)) ->
  @serve k r S q f (Req n) = Ok (q', f', cs) -> f_dyn f' = n_dyn n (q_dyn q) /\ q_dyn q' = n_dyn n (q_dyn q).
Proof.
move=> hk hr /call_back_step [e [e1 _ _ _ _]].
have [_ +] := C66_settings_partial (or_introl hk) e.
have e2 : q_dyn (clamp_params (merge q n)) = n_dyn n (q_dyn q) by exact: clamp_dynamic_id.
rewrite e1 e2; by case: (k) hk.
Qed.
Print Assumptions C68_settings.

(** ** Requests to initialise *)

Definition inits {k r} (cs : list (call (filter (dim k) (config_of k r)))) : list Z :=
  List.concat (List.map (fun c => match c with CInit t _ => [:: t] | _ => [::] end) cs).

Lemma manager_inits k r S y h now scale c : manager_init k r S y h now scale = Ok c -> @inits k r [:: c] = [:: now].
Proof.
rewrite /manager_init; case: (init_values _ _ _ _ _) => [[[vals q]|]| |] //=.
- by case: initial_state => [s| |] //= -[<-].
- by case=> <-.
Qed.
Lemma inits_cat k r (a b : list (call (filter (dim k) (config_of k r)))) : inits (a ++ b)%list = (inits a ++ inits b)%list.
Proof. by rewrite /inits List.map_app List.concat_app. Qed.
Lemma config_inits k r S f y init height f' cs : front_step k r S f (IConfig y init height) = Ok (f', cs) ->
  f_h f' = f_h f /\
  inits cs = ((if init is Some (t, _) then [:: t] else [::]) ++
             (if height is Some (t, _) then if has_pose k && ~~ no_position (f_h f) then [:: t] else [::] else [::]))%list.
Proof.
rewrite /front_step /on_config.
have h1 c1 : (match init with
             | Some (now, scale) => let* c := manager_init k r S (no_delay k y) (f_h f) now scale in Ok [:: c]
             | None => Ok [::] end) = Ok c1 -> inits c1 = if init is Some (t, _) then [:: t] else [::].
  case: init => [[t x]|]; last by case=> <-.
  by case e: (manager_init _ _ _ _ _ _ _) => [c| |] //= -[<-]; exact: manager_inits e.
case: (match init with Some _ => _ | None => _ end) h1 => [c1| |] //= /(_ _ erefl) h1.
case: height => [[t z]|]; last by case=> <- <-; rewrite List.app_nil_r.
case: (has_pose k) => /=; last by case=> <- <-; rewrite List.app_nil_r.
case: (no_position _) => /=; first by case=> <- <-; rewrite List.app_nil_r.
have h2 c2 : (if nonzero z then manager_init k r S (no_delay k y) (f_h f) t (Rdiv (v3z (a_zp (h_pose (f_h f)))) z)
   else Ok (CInit t (@mkst (filter (dim k) (config_of k r)) v3zero v3zero FNan (PMat (initial_cov k))))) = Ok c2 -> inits [:: c2] = [:: t].
  by case: ifP => _; [exact: manager_inits|case=> <-].
case: (if nonzero z then _ else _) h2 => [c2| |] //= /(_ _ erefl) h2 -[<- <-].
by rewrite inits_cat h1 h2.
Qed.

(** No request to initialise is left over. *)
Lemma session_done k r S q f l q' f' css : q_init q = false -> @session k r S q f l = Ok (q', f', css) -> q_init q' = false.
Proof.
elim: l q f q' f' css => [|m l IH] q f q' f' css hq /=; first by case=> <- _ _.
case e1: (serve _ _ _ _ _) => [[[q1 f1] cs]| |] //=.
case e2: (session _ _ _ _ _) => [[[q2 f2] css1]| |] //= -[<- _ _]; apply: IH e2.
case: m e1 => [n|i] /=.
- by move/call_back_step=> [_ [_ _ _ -> _]]; rewrite hq; case: (q_init _).
- by case: (front_step _ _ _ _ _) => [[f3 cs3]| |] //= -[<- _ _].
Qed.
Lemma life_done k r S q now now' l q' f css : @life k r S q now now' l = Ok (q', f, css) -> q_init q' = false.
Proof.
rewrite /life /server_start.
case e1: (call_back _ _ _ _ _ _ _) => [[[q1 f1] cs]| |] //=.
case e2: (session _ _ _ _ _) => [[[q2 f2] css1]| |] //= -[<- _ _]; apply: session_done e2.
by move/call_back_step: e1 => [_ [_ _ _ -> _]] /=; case: (q_init q).
Qed.

(** A request initialises the filter once for core_init_filter, and once more for
    core_set_height if a position was measured and the server does not have that flag set from
    before.  The server keeps the flag of a request that was refused. *)
Theorem C68_request k r S q now now' l q1 f css n q2 f2 cs :
  @life k r S q now now' l = Ok (q1, f, css) -> @serve k r S q1 f (Req n) = Ok (q2, f2, cs) ->
  let known := v3norm2 (a_zp (h_pose (f_h f))) <> R0 in
  let honoured := [/\ has_pose k, n_set n = Some true, q_set q1 = false & known] in
  exists a b, inits cs = (a ++ b)%list /\
    (n_init n = Some true -> a = [:: n_now n]) /\ (n_init n <> Some true -> a = [::]) /\
    (honoured -> b = [:: n_now' n]) /\ (~ honoured -> b = [::]) /\
    (has_pose k -> (q_set q2 = true <-> (n_set n = Some true \/ n_set n = None /\ q_set q1 = true) /\ ~ honoured)).
Proof.
move=> hl hs known honoured; have hq := life_done hl.
have [e [_ _ _ _ eset]] := call_back_step hs; have [_ ei] := config_inits e.
have hk : known <-> no_position (f_h f) = false.
  rewrite /known /no_position; case en: (nonzero _) => /=.
  - by split=> // _; move/nonzeroP: en.
  - by split=> // h; move/nonzeroP: h; rewrite en.
have hho : honoured <-> has_pose k && (n_set n == Some true) && ~~ q_set q1 && ~~ no_position (f_h f).
  rewrite /honoured; split.
  - by case=> -> -> -> /hk ->.
  - by case/andP=> /andP [/andP [-> /eqP ->] /negbTE ->] /negbTE; split=> //; apply/hk.
eexists; eexists; split; first exact: ei.
rewrite eset /= hq; set pos := no_position _ in hho *; clear - hho.
case: (n_init n) => [[]|] /=; do 2 (split; first by []).
all: move: hho; case: (has_pose k); case: (n_set n) => [[]|]; case: (q_set q1); case: pos => /= hho; split; try (by move/hho); try (by move=> h; case: h; apply/hho).
all: try (split; [by move=> h; try (by case: h; apply/hho); try (by move/hho: h)|]).
all: try by [].
all: move=> _; split; try by [].
all: try (by case=> _ h; case: h; apply/hho).
all: try (by case=> -[|[]]).
all: try (by move=> _; split; [by left|by move/hho]).
all: try (by move=> _; split; [by right|by move/hho]).
Qed.
Print Assumptions C68_request.

(** A request to set the height, made after a position was measured, initialises the filter. *)
Definition C68_retry_full : Prop := forall k r S q now now' l q1 f css n q2 f2 cs,
  has_pose k -> List.Forall direct l ->
  @life k r S q now now' l = Ok (q1, f, css) -> @serve k r S q1 f (Req n) = Ok (q2, f2, cs) ->
  n_set n = Some true -> v3norm2 (a_zp (h_pose (f_h f))) <> R0 -> List.In (n_now' n) (inits cs).

(** True unless an earlier request was refused and the flag has not been taken back since.  Until
    it is, every request is ignored. *)
Theorem C68_retry_partial k r S q now now' l q1 f css n q2 f2 cs :
  has_pose k -> q_set q1 = false ->
  @life k r S q now now' l = Ok (q1, f, css) -> @serve k r S q1 f (Req n) = Ok (q2, f2, cs) ->
  n_set n = Some true -> v3norm2 (a_zp (h_pose (f_h f))) <> R0 -> List.In (n_now' n) (inits cs) /\ q_set q2 = false.
Proof.
move=> hk hq hl hs h1 h2; have [a [b [-> [_ [_ [h3 [_ h4]]]]]]] := C68_request hl hs.
have ho : [/\ has_pose k, n_set n = Some true, q_set q1 = false & v3norm2 (a_zp (h_pose (f_h f))) <> R0] by [].
split; first by rewrite (h3 ho); apply/in_or_app; right; left.
by case e: (q_set q2) => //; move/(h4 hk): e => [_ []].
Qed.
Print Assumptions C68_retry_partial.

Definition keeps_flag (m : message) : Prop := match m with Req n => n_set n <> Some false | Msg _ => True end.
Lemma session_stuck k r S q f l q' f' css : q_set q = true -> List.Forall keeps_flag l ->
  @session k r S q f l = Ok (q', f', css) -> q_set q' = true.
Proof.
elim: l q f q' f' css => [|m l IH] q f q' f' css hq hl /=; first by case=> <- _ _.
have [hm hl'] : keeps_flag m /\ List.Forall keeps_flag l by inversion hl.
case e1: (serve _ _ _ _ _ _) => [[[q1 f1] cs]| |] //=.
case e2: (session _ _ _ _ _ _) => [[[q2 f2] css1]| |] //= -[<- _ _]; apply: IH hl' e2.
case: m hm e1 {hl} => [n|i] /= hm.
- by move/call_back_step=> [_ [_ _ _ _ ->]] /=; rewrite hq; case: (n_set n) hm => [[]|] //= _; rewrite andbF.
- by case: (front_step _ _ _ _ _) => [[f3 cs3]| |] //= -[<- _ _].
Qed.
Theorem C68_stuck k r S q now now' l1 l2 q1 f1 css1 q2 f2 css2 n q3 f3 cs :
  @life k r S q now now' l1 = Ok (q1, f1, css1) -> q_set q1 = true ->
  List.Forall keeps_flag l2 -> @session k r S q1 f1 l2 = Ok (q2, f2, css2) ->
  @serve k r S q2 f2 (Req n) = Ok (q3, f3, cs) ->
  inits cs = if n_init n is Some true then [:: n_now n] else [::].
Proof.
move=> hl hq hk hs hs2.
have hl2 : @life k r S q now now' (l1 ++ l2)%list = Ok (q2, f2, (css1 ++ css2)%list).
  move: hl; rewrite /life; case: server_start => [[[q0 f0] cs0]| |] //=.
  suff G : forall l q0 f0 css, @session k r S q0 f0 l = Ok (q1, f1, css) ->
      session k r S q0 f0 (l ++ l2)%list = Ok (q2, f2, (css ++ css2)%list).
    by case e: (session k r S q0 f0 l1) => [[[qa fa] cssa]| |] //= -[eq ef ec]; subst; rewrite (G _ _ _ _ e).
  elim=> [|m l IH] qa fa css /=; first by case=> -> -> <-.
  case: serve => [[[qb fb] csb]| |] //=; case e: (session _ _ _ _ _ _) => [[[qc fc] cssc]| |] //= -[e1 e2 e3]; subst.
  by rewrite (IH _ _ _ e).
have hst := session_stuck hq hk hs.
have [a [b [-> [h1 [h2 [_ [h3 _]]]]]]] := C68_request hl2 hs2.
rewrite (h3 _); last by case=> _ _; rewrite hst.
by rewrite List.app_nil_r; case e: (n_init n) => [[]|]; [apply: h1|apply: h2; rewrite e|apply: h2; rewrite e].
Qed.
Print Assumptions C68_stuck.

(** A client that asks too early and asks again. *)
Definition set_height (t : Z) : request := Request (fun y => y) None None None (Some true) t t.
Definition defaults : params := Params dynamic_new R1 R1 false false.

Lemma config_runs k r S f y height : height = None \/ no_position (f_h f) = true ->
  exists y', front_step k r S f (IConfig y None height) = Ok (Front y' (f_h f) (i_seq f), [::]).
Proof.
rewrite /front_step /on_config; cbn [bind]; case: height => [[t z]|]; last by eexists.
case=> // ->; case: (~~ has_pose k); by eexists.
Qed.
Lemma raised_front y i : exists rd,
  front_step NPose (some_process false) demo (Front y handlers_new i) (IPose raised) =
  Ok (Front y (Handlers (PoseHandler 1 true 1000000000 (V3 R0 R0 R1) qone) pos_handler_new press_handler_new
                        angle_handler_new dist_handler_new) i, [:: CMeas (Z.sub 1000000000 (y_pose_delay y)) rd]).
Proof. by eexists. Qed.
Lemma new_nowhere : no_position handlers_new = true.
Proof. by rewrite /no_position; case en: nonzero => //; move/nonzeroP: en; case; rewrite /v3norm2 /v3dot /=; lra. Qed.

Lemma early : exists q1 f css, 
  [/\ @life NPose (some_process false) demo defaults 0 0 [:: Req (set_height 1); Msg (IPose raised)] = Ok (q1, f, css),
      q_set q1 = true, a_zp (h_pose (f_h f)) = V3 R0 R0 R1 &
      exists q2 f2 cs, @serve NPose (some_process false) demo q1 f (Req (set_height 2)) = Ok (q2, f2, cs)].
Proof.
pose r := some_process false.
have [y1 e1] := @config_runs NPose r demo front_new (q_dyn (clamp_params defaults)) None (or_introl erefl).
set q1 := Params (clamp_dynamic dynamic_new) (clamp_scale R1) (clamp_height R1) false false.
have s1 : server_start NPose r demo defaults 0 0 = Ok (q1, Front y1 handlers_new (-1), [::]).
  by rewrite /server_start /call_back; cbn [clamp_params q_init q_set defaults orb andb eq_op has_pose]; rewrite e1.
set f1 := Front y1 handlers_new (-1) in s1.
have [y2 e2] := @config_runs NPose r demo f1 (q_dyn (clamp_params (merge q1 (set_height 1))))
  (Some (Zpos xH, q_height (clamp_params (merge q1 (set_height 1))))) (or_intror new_nowhere).
set q2 := Params (clamp_dynamic (clamp_dynamic dynamic_new)) (clamp_scale (clamp_scale R1)) (clamp_height (clamp_height R1)) false true.
have s2 : serve NPose r demo q1 f1 (Req (set_height 1)) = Ok (q2, Front y2 handlers_new (-1), [::]).
  by rewrite /serve /call_back; move: e2; rewrite /= new_nowhere => ->.
have [rd e3] := raised_front y2 (-1).
set f3 := Front y2 (Handlers _ _ _ _ _) _ in e3.
have s3 : serve NPose r demo q2 (Front y2 handlers_new (-1)) (Msg (IPose raised)) = Ok (q2, f3, [:: CMeas (Z.sub 1000000000 (y_pose_delay y2)) rd]).
  by rewrite /serve e3.
have [y4 e4] := @config_runs NPose r demo f3 (q_dyn (clamp_params (merge q2 (set_height 2)))) None (or_introl erefl).
exists q2, f3; eexists; split=> //.
- by rewrite /life s1; cbn [bind session]; rewrite s2; cbn [bind]; rewrite s3.
- eexists; eexists; eexists; rewrite /serve /call_back.
  by cbn [clamp_params merge q_init q_set set_height n_init n_set odflt oapp q2 orb andb eq_op has_pose negb eqb]; rewrite e4.
Qed.

Theorem C68_retry_refuted : ~ C68_retry_full.
Proof.
move=> h; have [q1 [f [css [hl hq hz [q2 [f2 [cs hs]]]]]]] := early.
have hk : v3norm2 (a_zp (h_pose (f_h f))) <> R0 by rewrite hz /v3norm2 /v3dot /=; lra.
have hd : List.Forall direct [:: Req (set_height 1); Msg (IPose raised)] by repeat constructor.
have := h NPose _ _ _ _ _ _ _ _ _ _ _ _ _ isT hd hl hs erefl hk.
have hs0 : @session NPose (some_process false) demo q1 f [::] = Ok (q1, f, [::]) by [].
by rewrite (C68_stuck hl hq (List.Forall_nil _) hs0 hs).
Qed.
Print Assumptions C68_retry_refuted.

(** ** Consequences for the filter *)

Definition msgs_with (P : input -> Prop) (m : message) : Prop := match m with Msg i => P i | Req _ => True end.

(** The scale stays nonnegative, whatever is requested by reconfiguration, if the poses lie above
    the origin and the services are not asked for a negative scale or height. *)
Theorem C68_scale k r S d q now now' l q' f css c ev t s s0 :
  has_pose k -> k_pose_fixed S || k_world S -> List.Forall direct l ->
  List.Forall (msgs_with (input_ok k S)) l -> List.Forall (msgs_with (scales_with (Rle R0))) l ->
  List.Forall (msgs_with (poses_with (fun p => Rle R0 (v3z p)))) l -> List.Forall (msgs_with (heights_with (Rlt R0))) l ->
  @life k r S q now now' l = Ok (q', f, css) ->
  run (filter (dim k) (config_of k r)) d (start _ _) (List.concat css) = Ok (c, ev) -> seen c ev t s -> s_val s = FState s0 ->
  exists i L, [/\ nth_error s0 5 = Some i, ival i = VVec [:: L] & Rle R0 L].
Proof.
move=> hk hw hd h1 h2 h3 h4 hl hrun; have [l' [_ _ hP hn]] := life_inputs hd hl.
have hnode := hn _ _ _ _ hrun.
apply: (@C66_scale_above k r S d dynamic_new l' f c ev t s s0 hk hw _ _ _ _ hnode).
- exact: hP.
- apply: hP => // y [[t' x]|] h //= [_ hx _]; have := hx _ _ erefl; case; lra.
- exact: hP.
- apply: hP => // y i [[t' z]|] //= [_ _ hz]; have := hz _ _ erefl; lra.
Qed.
Print Assumptions C68_scale.

Lemma config_number k r S f y init height f' cs t s :
  (forall t x, init = Some (t, x) -> x <> R0) -> (forall t z, height = Some (t, z) -> z <> R0) ->
  zero_q (k_q_ic S) = false -> zero_q (a_zq (h_pose (f_h f))) = false -> v3z (a_zp (h_pose (f_h f))) <> R0 ->
  front_step k r S f (IConfig y init height) = Ok (f', cs) -> List.In (CInit t s) cs -> s_val s <> FNan.
Proof.
move=> hi hh z1 z2 hz; rewrite /front_step /on_config.
have hc1 : forall c1, match init with Some (now, scale) => let* c := manager_init k r S (no_delay k y) (f_h f) now scale in Ok [:: c]
                              | None => Ok [::] end = Ok c1 -> List.In (CInit t s) c1 -> s_val s <> FNan.
  case: init hi => [[t1 x]|] hi c1 /=; last by case=> <-.
  by case e: manager_init => [c| |] //= -[<-] [ec|//]; rewrite ec in e; apply: (init_number _ z1 z2 e); apply: (hi _ _ erefl).
case ec1: (match init with Some _ => _ | None => _ end) => [c1| |] //=; have {hc1 ec1} hc1 := hc1 _ ec1.
case: height hh => [[t2 z]|] hh; last by case=> _ <-.
case: (~~ has_pose k); first by case=> _ <-.
case: no_position; first by case=> _ <-.
have nz : nonzero z = true by apply/nonzeroP; apply: (hh _ _ erefl).
rewrite nz; case e: manager_init => [c| |] //= -[_ <-] hin; have [//|[ec|//]] := List.in_app_or _ _ _ hin.
rewrite ec in e; apply: (init_number _ z1 z2 e).
by rewrite /Rdiv; apply: Rmult_integral_contrapositive_currified => //; apply: Rinv_neq_0_compat; apply: (hh _ _ erefl).
Qed.

(** A request never starts the filter with something that is not a number, if the calibration and
    the measured pose are attitudes and the pose is not at height zero. *)
Theorem C68_number k r S q now now' l q1 f css n q2 f2 cs t s :
  @life k r S q now now' l = Ok (q1, f, css) -> @serve k r S q1 f (Req n) = Ok (q2, f2, cs) ->
  qnorm2 (k_q_ic S) = R1 -> qnorm2 (a_zq (h_pose (f_h f))) = R1 -> v3z (a_zp (h_pose (f_h f))) <> R0 ->
  List.In (CInit t s) cs -> s_val s <> FNan.
Proof.
move=> _ hs h1 h2 h3; have [e _] := call_back_step hs.
have [_ [hs1 hs2] [hh1 hh2]] := clamp_params_in (merge q1 n).
have z1 : zero_q (k_q_ic S) = false by apply/zero_qP; rewrite h1; lra.
have z2 : zero_q (a_zq (h_pose (f_h f))) = false by apply/zero_qP; rewrite h2; lra.
apply: (config_number _ _ z1 z2 h3 e).
- move=> t' x; case: ifP => // _ [_ <-]; apply: Rgt_not_eq; case: (has_pose k); cbn iota; last by lra.
  by apply: Rlt_le_trans hs1; lra.
- by move=> t' z; case: ifP => // _ [_ <-]; apply: Rgt_not_eq; apply: Rlt_le_trans hh1; lra.
Qed.
Print Assumptions C68_number.

(** The scale the filter is started with is the requested one, or the measured height over the
    requested one. *)
Lemma manager_time k r S y h now scale t s : manager_init k r S y h now scale = Ok (CInit t s) -> t = now.
Proof. by rewrite /manager_init; case: init_values => [[[v u]|]| |] //=; [case: initial_state => //= s0 [->]|case=> ->]. Qed.
Lemma config_init k r S f y init height f' cs t s :
  front_step k r S f (IConfig y init height) = Ok (f', cs) -> List.In (CInit t s) cs -> s_val s <> FNan ->
  exists y' x, manager_init k r S y' (f_h f) t x = Ok (CInit t s) /\ y' = no_delay k y /\
    (init = Some (t, x) \/ exists z, height = Some (t, z) /\ x = Rdiv (v3z (a_zp (h_pose (f_h f)))) z).
Proof.
rewrite /front_step /on_config.
have hc1 : forall c1, match init with Some (now, scale) => let* c := manager_init k r S (no_delay k y) (f_h f) now scale in Ok [:: c]
                              | None => Ok [::] end = Ok c1 -> List.In (CInit t s) c1 ->
    exists y' x, manager_init k r S y' (f_h f) t x = Ok (CInit t s) /\ y' = no_delay k y /\ init = Some (t, x).
  case: init => [[t1 x]|] c1 /=; last by case=> <-.
  case e: manager_init => [c| |] //= -[<-] [ec|//]; rewrite ec in e; have et := manager_time e; rewrite et in e *.
  by exists (no_delay k y), x.
case ec1: (match init with Some _ => _ | None => _ end) => [c1| |] //=; have {hc1 ec1} hc1 := hc1 _ ec1.
have hc : List.In (CInit t s) c1 -> exists y' x, manager_init k r S y' (f_h f) t x = Ok (CInit t s) /\ y' = no_delay k y /\
    (init = Some (t, x) \/ exists z, height = Some (t, z) /\ x = Rdiv (v3z (a_zp (h_pose (f_h f)))) z).
  by move/hc1=> [y' [x [h1 [h2 h3]]]]; exists y', x; split=> //; split=> //; left.
case: height hc => [[t2 z]|] hc; last by case=> _ <- /hc.
case: (~~ has_pose k); first by case=> _ <- /hc.
case: no_position; first by case=> _ <- /hc.
case: nonzero => /=; last by case=> _ <- hin hn; have [h|[ec|[]]] := List.in_app_or _ _ _ hin; [exact: hc|move: ec hn => -[_ <-]].
case e: manager_init => [c| |] //= -[_ <-] hin hn; have [h|[ec|[]]] := List.in_app_or _ _ _ hin; first exact: hc.
rewrite ec in e; have et := manager_time e; rewrite et in e *; exists (no_delay k y); eexists; split; first exact: e.
by split=> //; right; exists z.
Qed.
Theorem C68_value k r S q now now' l q1 f css n q2 f2 cs t s s0 x z :
  has_pose k -> (k = NPositionPose -> qnorm2 (a_zq (h_pose (f_h f))) = R1) ->
  @life k r S q now now' l = Ok (q1, f, css) -> @serve k r S q1 f (Req n) = Ok (q2, f2, cs) ->
  n_scale n = Some x -> Rle (Rdiv (IZR 1) (IZR 1000)) x -> Rle x (IZR 30) ->
  n_height n = Some z -> Rle (Rdiv (IZR 1) (IZR 10)) z -> Rle z (IZR 20) ->
  List.In (CInit t s) cs -> s_val s = FState s0 ->
  exists i L, [/\ nth_error s0 5 = Some i, ival i = VVec [:: L] &
    [/\ n_init n = Some true, t = n_now n & L = x] \/
    [/\ n_set n = Some true, t = n_now' n & L = Rdiv (v3z (a_zp (h_pose (f_h f)))) z]].
Proof.
move=> hk hu hl hs ex hx1 hx2 ez hz1 hz2 hin es; have [e _] := call_back_step hs.
have [|y' [L [hm [_ hL]]]] := config_init e hin; first by rewrite es.
move: hm; rewrite /manager_init; case ei: (init_values _ _ _ _ _) => [[[vals u]|]| |] //; cbn [bind]; last first.
  by case=> eq; move: es; rewrite -eq.
have [s1 [-> _ _ h5 _]] := init_fine r ei hu; cbn [bind] => -[es1].
have {es es1 h5} h5 : nth_error s0 5 = inst_at k r 5 (VVec [:: L]).
  by have := h5 hk; move: es; rewrite -es1 => -[->].
have [i [hi vi]] : exists i, inst_at k r 5 (VVec [:: L]) = Some i /\ ival i = VVec [:: L].
  by rewrite /inst_at; case: (k) hk => // _ /=; eexists.
exists i, L; split; [by rewrite h5|by []|].
have hd := life_done hl.
case: hL => [|[z' []]]; rewrite /clamp_params /merge /= ?hd ?hk /=.
- rewrite ex /clamp_scale /= clamp_id //; case: (n_init n) => [[]|] //= -[<- <-]; by left.
- rewrite ez /clamp_height /= clamp_id //; case: (n_set n) => [[]|] //=; case: (q_set q1) => //= -[<- <-] ->; by right.
Qed.
Print Assumptions C68_value.

(** The pose node, a pose above the origin, and a request of a scale of 2 and a height of 4. *)
Definition both : request :=
  Request (fun y => y) (Some (IZR 2)) (Some (IZR 4)) (Some true) (Some true) 2000000000 3000000000.
Example C68_ex : exists q1 f css q2 f2 cs s s0, 
  [/\ @life NPose (some_process false) demo defaults 0 0 [:: Msg (IPose raised)] = Ok (q1, f, css) /\ q_set q1 = false,
      @serve NPose (some_process false) demo q1 f (Req both) = Ok (q2, f2, cs),
      List.Forall direct [:: Msg (IPose raised); Req both] /\
      List.Forall (msgs_with (input_ok NPose demo)) [:: Msg (IPose raised); Req both],
      List.In (CInit (Zpos 3000000000) s) cs /\ s_val s = FState s0 &
      exists i, nth_error s0 5 = Some i /\ ival i = VVec [:: Rdiv R1 (IZR 4)]].
Proof.
pose r := some_process false.
have [y1 e1] := @config_runs NPose r demo front_new (q_dyn (clamp_params defaults)) None (or_introl erefl).
set q1 := Params (clamp_dynamic dynamic_new) (clamp_scale R1) (clamp_height R1) false false.
have s1 : server_start NPose r demo defaults 0 0 = Ok (q1, Front y1 handlers_new (-1), [::]).
  by rewrite /server_start /call_back; cbn [clamp_params q_init q_set defaults orb andb eq_op has_pose]; rewrite e1.
have [rd e3] := raised_front y1 (-1).
set f3 := Front y1 (Handlers _ _ _ _ _) _ in e3.
have s3 : serve NPose r demo q1 (Front y1 handlers_new (-1)) (Msg (IPose raised)) = Ok (q1, f3, [:: CMeas (Z.sub 1000000000 (y_pose_delay y1)) rd]).
  by rewrite /serve e3.
have known : no_position (f_h f3) = false.
  by rewrite /no_position; case en: nonzero => //=; have [_ h] := nonzeroP (v3norm2 (a_zp (h_pose (f_h f3))));
     rewrite h // in en; rewrite /v3norm2 /v3dot /=; lra.
have ex : clamp_scale (IZR 2) = IZR 2 by apply: clamp_id; lra.
have ez : clamp_height (IZR 4) = IZR 4 by apply: clamp_id; lra.
set y := clamp_dynamic (clamp_dynamic dynamic_new).
have [sa [aa [ea _]]] := @scale_start r (Zpos 2000000000) (IZR 2) y (f_h f3) ltac:(lra) erefl erefl.
have [sb [ab [eb hb]]] := @scale_start r (Zpos 3000000000) (Rdiv R1 (IZR 4)) y (f_h f3) ltac:(lra) erefl erefl.
have s4 : exists f4 c1, serve NPose r demo q1 f3 (Req both) = Ok
    (Params y (IZR 2) (IZR 4) false false, f4,
     [:: CInit (Zpos 2000000000) c1; CInit (Zpos 3000000000) (@mkst (filter 28 (config_of NPose r)) ab v3zero (FState sb) (PMat (initial_cov NPose)))]).
  rewrite /serve /call_back.
  cbn [clamp_params merge q_init q_set q_scale q_height q_dyn both n_dyn n_scale n_height n_init n_set odflt oapp q1 orb andb eq_op has_pose negb eqb].
  rewrite known ex ez /front_step /on_config; cbn [no_delay n_now n_now' both].
  rewrite -[(false != true) && true]/true; cbn iota; rewrite -/y ea; cbn [bind negb has_pose]; rewrite known (nonzero_true (_ : IZR 4 <> R0)); last lra.
  rewrite -[v3z _]/R1 eb; cbn [bind]; do 2 eexists; reflexivity.
have [f4 [c1 s4']] := s4.
exists q1, f3; eexists; do 3 eexists; eexists; exists sb; split; [|exact: s4'| | |].
- by split=> //; rewrite /life s1; cbn [bind session]; rewrite s3; cbn [bind].
- by split; repeat constructor.
- by split; [right; left|].
- by eexists; split; [exact: hb|].
Qed.
