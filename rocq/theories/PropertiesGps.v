(** C41: the GPS conversion. *)

From Coq Require Import Reals List Lra Lia Psatz.
From Verif Require Import Geom GeomProofs Gps GpsProofs.
Import ListNotations.
Open Scope R_scope.

Definition dist (a b : v3) : R :=
  sqrt ((v3x a - v3x b) * (v3x a - v3x b) + (v3y a - v3y b) * (v3y a - v3y b)
        + (v3z a - v3z b) * (v3z a - v3z b)).
Definition dot (a b : v3) : R := v3x a * v3x b + v3y a * v3y b + v3z a * v3z b.

(** Unit vectors to the east, north and up at a place (degrees). *)
Definition east (lon : R) : v3 := V3 (- sin (lon * PI / 180)) (cos (lon * PI / 180)) 0.
Definition north (lat lon : R) : v3 :=
  V3 (- (sin (lat * PI / 180) * cos (lon * PI / 180))) (- (sin (lat * PI / 180) * sin (lon * PI / 180)))
     (cos (lat * PI / 180)).
Definition up (lat lon : R) : v3 :=
  V3 (cos (lat * PI / 180) * cos (lon * PI / 180)) (cos (lat * PI / 180) * sin (lon * PI / 180))
     (sin (lat * PI / 180)).

(** A converter after any number of adjustments: of a fresh one, or of one whose reference
    was set (and set again). *)
Inductive reachable : gps -> Prop :=
| r_new : reachable gps_new
| r_init lat lon alt : reachable (init_reference lat lon alt)
| r_adjust z g : reachable g -> reachable (adjust_reference z g).

Lemma reachable_unit g : reachable g -> qnorm2 (ref_q g) = 1.
Proof.
  induction 1; [cbv [gps_new ref_q qone qnorm2 qw qx qy qz]; ring|apply quat_of_mat_ok, enu_rotation|].
  assumption.
Qed.

(** Converted points have the distances the earth-centred points have. *)
Theorem C41_distances : forall g a b, reachable g -> dist (to_enu g a) (to_enu g b) = dist a b.
Proof.
  intros g a b hg. apply reachable_unit in hg. unfold to_enu. rewrite !qtransform_rot by exact hg.
  assert (h := rotation_norm _ (v3sub a b) (qrot_rotation _ hg)).
  unfold dist. f_equal. revert h. generalize (qrot (ref_q g)) (ref_p g). intros [x y z] p.
  cbv [v3norm2 m3vec v3dot v3sub r1 r2 r3 v3x v3y v3z].
  intros h. rewrite <- h. ring.
Qed.
Print Assumptions C41_distances.

(** The reference has coordinates zero. *)
Theorem C41_reference : forall lat lon alt,
  wgs_to_enu (init_reference lat lon alt) lat lon alt = V3 0 0 0.
Proof.
  intros. unfold wgs_to_enu, to_enu. cbn [ref_p ref_q init_reference].
  generalize (to_ecef lat lon alt) (quat_of_mat (enu_mat lat lon)). intros [x y z] [a b c d].
  cbv [v3sub qtransform v3add v3scale v3cross qvec qw qx qy qz v3x v3y v3z]. f_equal; ring.
Qed.
Print Assumptions C41_reference.

Lemma rad_eq x : rad x = x * PI / 180.
Proof. unfold rad. field. Qed.

(** The coordinates are the components to the east, north and up. *)
Theorem C41_axes : forall lat lon alt p, let g := init_reference lat lon alt in
  let d := v3sub p (to_ecef lat lon alt) in
  to_enu g p = V3 (dot (east lon) d) (dot (north lat lon) d) (dot (up lat lon) d).
Proof.
  intros lat lon alt p g d. unfold to_enu. fold d.
  destruct (quat_of_mat_ok _ (enu_rotation lat lon)) as [h1 h2].
  cbn [g init_reference ref_q ref_p]. fold d. rewrite qtransform_rot, h1 by exact h2.
  unfold enu_mat. rewrite !rad_eq.
  cbv [m3vec v3dot dot east north up r1 r2 r3 v3x v3y v3z]. f_equal; ring.
Qed.
Print Assumptions C41_axes.

(** A point above the reference is straight up by the height difference. *)
Theorem C41_height : forall lat lon alt h,
  wgs_to_enu (init_reference lat lon alt) lat lon (alt + h) = V3 0 0 h.
Proof.
  intros lat lon alt h. unfold wgs_to_enu. rewrite C41_axes.
  cbv [to_ecef dot east north up v3sub v3x v3y v3z]. rewrite !rad_eq.
  assert (h1 := sc2 (lat * PI / 180)). assert (h2 := sc2 (lon * PI / 180)). revert h1 h2.
  generalize (wgs_a / sqrt (1 - wgs_e2 * sin (lat * PI / 180) * sin (lat * PI / 180))).
  generalize (sin (lat * PI / 180)) (cos (lat * PI / 180)) (sin (lon * PI / 180)) (cos (lon * PI / 180)).
  intros sa ca so co N h1 h2. f_equal.
  - ring.
  - transitivity (h * sa * ca * (1 - (so * so + co * co))); [ring|rewrite h2; ring].
  - transitivity (h * (ca * ca * (so * so + co * co) + sa * sa)); [ring|].
    rewrite h2. transitivity (h * (sa * sa + ca * ca)); [ring|rewrite h1; ring].
Qed.
Print Assumptions C41_height.

(** Points of altitude zero lie on the ellipsoid. *)
Theorem C41_ellipsoid : forall lat lon,
  let p := to_ecef lat lon 0 in let a2 := wgs_a * wgs_a in
  v3x p * v3x p / a2 + v3y p * v3y p / a2 + v3z p * v3z p / (a2 * (1 - wgs_e2)) = 1.
Proof.
  intros lat lon. cbv [to_ecef v3x v3y v3z].
  assert (h1 := sc2 (rad lat)). assert (h2 := sc2 (rad lon)).
  assert (hs : 0 <= sin (rad lat) * sin (rad lat) <= 1) by nra.
  set (u := 1 - wgs_e2 * sin (rad lat) * sin (rad lat)).
  assert (he : 0 < wgs_e2 < 1) by (unfold wgs_e2; lra).
  assert (hu : 0 < u) by (unfold u; nra).
  assert (hq : sqrt u * sqrt u = u) by (apply sqrt_sqrt; lra).
  assert (hp : 0 < sqrt u) by (apply sqrt_lt_R0; exact hu).
  assert (ha : 0 < wgs_a) by (unfold wgs_a; lra).
  set (N := wgs_a / sqrt u).
  assert (hN : N * N * u = wgs_a * wgs_a) by (unfold N; transitivity (wgs_a * wgs_a * (/ sqrt u * / sqrt u) * (sqrt u * sqrt u));
        [rewrite hq; unfold Rdiv; ring|field; lra]).
  clearbody N.
  rewrite !Rplus_0_r. revert ha he h1 h2 hN. unfold u. clear.
  generalize (sin (rad lat)) (cos (rad lat)) (sin (rad lon)) (cos (rad lon)) wgs_e2 wgs_a.
  intros sa ca so co e a ha he h1 h2 hN.
  transitivity ((N * N * (ca * ca * (so * so + co * co) + (1 - e) * (sa * sa))) / (a * a)); [field; lra|].
  rewrite h2. replace (ca * ca * 1 + (1 - e) * (sa * sa)) with (1 - e * sa * sa) by lra.
  rewrite hN. field. lra.
Qed.
Print Assumptions C41_ellipsoid.

Example C41_example : reachable (adjust_reference 5 (init_reference 47 8 400)) /\
  wgs_to_enu (init_reference 47 8 400) 47 8 412 = V3 0 0 12 /\
  dist (to_enu (init_reference 47 8 400) (V3 1 2 3)) (to_enu (init_reference 47 8 400) (V3 4 6 3)) = 5.
Proof.
  split; [repeat constructor|]. split.
  - replace 412 with (400 + 12) by lra. apply C41_height.
  - rewrite C41_distances by constructor. unfold dist. cbn.
    replace ((1 - 4) * (1 - 4) + (2 - 6) * (2 - 6) + (3 - 3) * (3 - 3)) with (5 * 5) by ring.
    apply sqrt_square; lra.
Qed.

(** ** Height adjustment

    The handler asks for the height it measured to become [current_z].  Wanted: *)
Definition height_adjusted (g : gps) (p : v3) (current_z : R) : Prop :=
  to_enu (adjust_z (to_enu g p) current_z g) p =
  V3 (v3x (to_enu g p)) (v3y (to_enu g p)) current_z.

(** The reference is moved along the earth axis instead of up: the height changes by the
    request times the sine of the latitude, and the rest of the request goes into north. *)
Theorem C41_adjust_partial : forall lat lon alt p current_z,
  let g := init_reference lat lon alt in let e := to_enu g p in
  let s := v3z e - current_z in
  to_enu (adjust_z e current_z g) p =
  V3 (v3x e) (v3y e - s * cos (lat * PI / 180)) (v3z e - s * sin (lat * PI / 180)).
Proof.
  intros lat lon alt p current_z g e s. unfold adjust_z, to_enu at 1. fold s.
  destruct (quat_of_mat_ok _ (enu_rotation lat lon)) as [h1 h2].
  assert (he : e = m3vec (enu_mat lat lon) (v3sub p (ref_p g))).
  { unfold e, to_enu. cbn [g init_reference ref_q]. rewrite qtransform_rot, h1 by exact h2. reflexivity. }
  cbn [adjust_reference ref_q ref_p]. change (ref_q g) with (quat_of_mat (enu_mat lat lon)).
  rewrite qtransform_rot, h1 by exact h2. rewrite he. clearbody s.
  unfold enu_mat. rewrite !rad_eq.
  cbv [m3vec v3dot v3sub r1 r2 r3 v3x v3y v3z]. f_equal; ring.
Qed.
Print Assumptions C41_adjust_partial.

(** So it is right exactly at the north pole (or when nothing is requested), *)
Theorem C41_adjust_exact : forall lat lon alt p current_z, let g := init_reference lat lon alt in
  height_adjusted g p current_z <->
  (v3z (to_enu g p) = current_z \/ sin (lat * PI / 180) = 1).
Proof.
  intros lat lon alt p cz g. unfold height_adjusted. unfold g. rewrite C41_adjust_partial. fold g.
  assert (h := sc2 (lat * PI / 180)). revert h.
  generalize (sin (lat * PI / 180)) (cos (lat * PI / 180)) (to_enu g p). intros s c [x y z] h.
  cbn [v3x v3y v3z]. split.
  - intros e. injection e as e1 e2. destruct (Req_dec z cz) as [n|n]; [left; exact n|right].
    assert ((z - cz) * (1 - s) = 0) by lra. apply Rmult_integral in H as [H|H]; lra.
  - intros [->| ->]; [f_equal; ring|]. assert (hc : c * c = 0) by lra.
    apply Rmult_integral in hc. f_equal; [|ring]. destruct hc as [->| ->]; ring.
Qed.
Print Assumptions C41_adjust_exact.

(** and wrong elsewhere. *)
Theorem C41_adjust_refuted : exists lat lon alt p current_z,
  ~ height_adjusted (init_reference lat lon alt) p current_z.
Proof.
  exists 0, 0, 0, (to_ecef 0 0 (0 + 1)), 0. intros h.
  apply C41_adjust_exact in h as [h|h].
  - change (to_enu (init_reference 0 0 0) (to_ecef 0 0 (0 + 1)))
      with (wgs_to_enu (init_reference 0 0 0) 0 0 (0 + 1)) in h.
    rewrite C41_height in h. cbn in h. lra.
  - replace (0 * PI / 180) with 0 in h by field. rewrite sin_0 in h. lra.
Qed.
Print Assumptions C41_adjust_refuted.

(** ** The NavSatFix callback

    The first message of a handler should become its origin.  The flag that remembers it is
    shared by all handlers: only the first handler's first message does. *)
Theorem C41_first_fix : forall h m, fst (navsat h m world_new) = V3 0 0 0.
Proof. intros h [lat lon alt]. apply C41_reference. Qed.
Print Assumptions C41_first_fix.

(** Later messages of that handler are relative to its first. *)
Theorem C41_later_fix : forall h m m' w, referenceinit w = false ->
  fst (navsat h m' (snd (navsat h m w))) =
  wgs_to_enu (init_reference (f_lat m) (f_lon m) (f_alt m)) (f_lat m') (f_lon m') (f_alt m').
Proof.
  intros h m m' w hw. unfold navsat. rewrite hw. cbn. unfold set_gps.
  rewrite PeanoNat.Nat.eqb_refl. reflexivity.
Qed.
Print Assumptions C41_later_fix.

(** A second handler reports coordinates relative to the earth's centre. *)
Theorem C41_second_handler_refuted : exists h h' m m', h <> h' /\
  fst (navsat h' m' (snd (navsat h m world_new))) = V3 6378137 0 0.
Proof.
  exists 0%nat, 1%nat, (Fix 0 0 0), (Fix 0 0 0). split; [discriminate|].
  cbn [navsat referenceinit world_new snd fst handler_gps f_lat f_lon f_alt].
  change (wgs_to_enu gps_new 0 0 0 = V3 6378137 0 0).
  unfold wgs_to_enu, to_enu, to_ecef, rad, gps_new.
  replace (0 * (PI / 180)) with 0 by field. rewrite sin_0, cos_0.
  replace (1 - wgs_e2 * 0 * 0) with 1 by ring. rewrite sqrt_1. unfold wgs_a, wgs_e2.
  cbv [qtransform ref_q ref_p qone v3sub v3zero v3add v3scale v3cross qvec qw qx qy qz v3x v3y v3z].
  f_equal; field.
Qed.
Print Assumptions C41_second_handler_refuted.
