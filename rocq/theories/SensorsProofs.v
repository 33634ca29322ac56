(** Lemmas on the measurement models. *)

From Coq Require Import Reals ZArith List Bool Arith Lia Lra Nsatz.
From Verif Require Import Outcome Geom GeomProofs StateList StateListProofs Sensors SensorsSpec.
Import ListNotations.
Open Scope R_scope.

(** ** Calculus *)

Lemma deriv_ext : forall f g l, (forall t, f t = g t) -> deriv f l -> deriv g l.
Proof.
  intros f g l He Hf eps Hp. destruct (Hf eps Hp) as [d Hd]. exists d. intros h H1 H2.
  rewrite <- !He. exact (Hd h H1 H2).
Qed.
Lemma deriv_loc : forall f g l e, 0 < e -> (forall t, Rabs t < e -> f t = g t) -> deriv f l -> deriv g l.
Proof.
  intros f g l e He Hfg Hf eps Hp. destruct (Hf eps Hp) as [d Hd].
  assert (Hm : 0 < Rmin d e) by (apply Rmin_glb_lt; [apply cond_pos|exact He]).
  exists (mkposreal _ Hm). intros h H1 H2. cbn in H2.
  rewrite <- (Hfg (0 + h)), <- (Hfg 0).
  - apply Hd; [exact H1|]. eapply Rlt_le_trans; [exact H2|apply Rmin_l].
  - rewrite Rabs_R0. exact He.
  - rewrite Rplus_0_l. eapply Rlt_le_trans; [exact H2|apply Rmin_r].
Qed.
Lemma deriv_const : forall c, deriv (fun _ => c) 0.
Proof. intros c. apply derivable_pt_lim_const. Qed.
Lemma deriv_id : deriv (fun t => t) 1.
Proof. apply derivable_pt_lim_id. Qed.
Lemma deriv_add : forall f g a b, deriv f a -> deriv g b -> deriv (fun t => f t + g t) (a + b).
Proof. intros f g a b. apply derivable_pt_lim_plus. Qed.
Lemma deriv_sub : forall f g a b, deriv f a -> deriv g b -> deriv (fun t => f t - g t) (a - b).
Proof. intros f g a b. apply derivable_pt_lim_minus. Qed.
Lemma deriv_neg : forall f a, deriv f a -> deriv (fun t => - f t) (- a).
Proof. intros f a. apply derivable_pt_lim_opp. Qed.
Lemma deriv_mul : forall f g a b, deriv f a -> deriv g b -> deriv (fun t => f t * g t) (a * g 0 + f 0 * b).
Proof. intros f g a b. apply derivable_pt_lim_mult. Qed.
Lemma deriv_div : forall f g a b, deriv f a -> deriv g b -> g 0 <> 0 ->
  deriv (fun t => f t / g t) ((a * g 0 - b * f 0) / (g 0 * g 0)).
Proof. intros f g a b Hf Hg H0. apply (derivable_pt_lim_div f g 0 a b Hf Hg H0). Qed.
Lemma deriv_comp : forall f g a b, deriv f a -> derivable_pt_lim g (f 0) b -> deriv (fun t => g (f t)) (b * a).
Proof. intros f g a b. apply derivable_pt_lim_comp. Qed.
Lemma deriv_sqrt : forall f a, deriv f a -> 0 < f 0 -> deriv (fun t => sqrt (f t)) (a / (2 * sqrt (f 0))).
Proof.
  intros f a Hf H0. replace (a / (2 * sqrt (f 0))) with (/ (2 * sqrt (f 0)) * a)
    by (unfold Rdiv; ring).
  apply deriv_comp; [exact Hf|]. apply derivable_pt_lim_sqrt. exact H0.
Qed.
Lemma deriv_eq : forall f a b, deriv f a -> a = b -> deriv f b.
Proof. intros f a b H <-. exact H. Qed.
Lemma deriv_unique : forall f a b, deriv f a -> deriv f b -> a = b.
Proof. intros f a b. apply uniqueness_limite. Qed.

(** Solves [deriv f ?l] for polynomial [f] over functions with known derivatives. *)
Ltac dd := first
  [ eassumption
  | apply deriv_const
  | apply deriv_id
  | eapply deriv_add; [dd|dd]
  | eapply deriv_sub; [dd|dd]
  | eapply deriv_neg; dd
  | eapply deriv_mul; [dd|dd] ].
Ltac der := eapply deriv_eq; [dd|cbv beta].

Ltac s3 := split; [|split].
Ltac s4 := split; [|split; [|split]].
Ltac split_d := repeat match goal with
  | H : deriv3 _ _ |- _ => destruct H as (? & ? & ?)
  | H : derivq _ _ |- _ => destruct H as (? & ? & ? & ?)
  end.

Lemma deriv3_add : forall f g a b, deriv3 f a -> deriv3 g b -> deriv3 (fun t => v3add (f t) (g t)) (v3add a b).
Proof. intros. split_d. s3; cbn [v3add v3x v3y v3z]; der; reflexivity. Qed.
Lemma deriv3_sub : forall f g a b, deriv3 f a -> deriv3 g b -> deriv3 (fun t => v3sub (f t) (g t)) (v3sub a b).
Proof. intros. split_d. s3; cbn [v3sub v3x v3y v3z]; der; reflexivity. Qed.
Lemma deriv3_neg : forall f a, deriv3 f a -> deriv3 (fun t => v3neg (f t)) (v3neg a).
Proof. intros. split_d. s3; cbn [v3neg v3x v3y v3z]; der; reflexivity. Qed.
Lemma deriv3_scale : forall k f d a, deriv k d -> deriv3 f a ->
  deriv3 (fun t => v3scale (k t) (f t)) (v3add (v3scale d (f 0)) (v3scale (k 0) a)).
Proof. intros. split_d. s3; cbn [v3scale v3add v3x v3y v3z]; der; reflexivity. Qed.
Lemma deriv3_const : forall c, deriv3 (fun _ => c) v3zero.
Proof. intros. s3; cbn; apply deriv_const. Qed.
Lemma deriv3_eq : forall f a b, deriv3 f a -> a = b -> deriv3 f b.
Proof. intros f a b H <-. exact H. Qed.
Lemma deriv3_ext : forall f g l, (forall t, f t = g t) -> deriv3 f l -> deriv3 g l.
Proof.
  intros f g l He (H1 & H2 & H3). s3; (eapply deriv_ext; [|eassumption]); intros t; cbn; rewrite He; reflexivity.
Qed.
Lemma derivq_eq : forall f a b, derivq f a -> a = b -> derivq f b.
Proof. intros f a b H <-. exact H. Qed.

(** Matrices with entries that vary. *)
Definition derivm (f : R -> m3) (l : m3) : Prop :=
  deriv3 (fun t => r1 (f t)) (r1 l) /\ deriv3 (fun t => r2 (f t)) (r2 l) /\ deriv3 (fun t => r3 (f t)) (r3 l).
Lemma deriv3_mvec : forall A x B d, derivm A B -> deriv3 x d ->
  deriv3 (fun t => m3vec (A t) (x t)) (v3add (m3vec B (x 0)) (m3vec (A 0) d)).
Proof.
  intros A x B d (H1 & H2 & H3) Hx. split_d.
  s3; cbn [m3vec v3dot v3add v3x v3y v3z]; unfold v3dot; der; ring.
Qed.
Lemma deriv_dot : forall f g a b, deriv3 f a -> deriv3 g b ->
  deriv (fun t => v3dot (f t) (g t)) (v3dot a (g 0) + v3dot (f 0) b).
Proof. intros. split_d. unfold v3dot. der. ring. Qed.
Lemma derivq_mul : forall f g a b, derivq f a -> derivq g b ->
  derivq (fun t => qmul (f t) (g t))
    (let x := qmul a (g 0) in let y := qmul (f 0) b in
     Quat (qw x + qw y) (qx x + qx y) (qy x + qy y) (qz x + qz y)).
Proof. intros. split_d. s4; cbn [qmul qw qx qy qz]; der; ring. Qed.
Lemma derivq_conj : forall f a, derivq f a -> derivq (fun t => qconj (f t)) (qconj a).
Proof. intros. split_d. s4; cbn [qconj qw qx qy qz]; der; reflexivity. Qed.

(** ** Quaternions *)

Lemma qrot_conj_tr : forall q, m3tr (qrot (qconj q)) = qrot q.
Proof. intros [w x y z]. unfold m3tr, qrot, qconj; cbn. f_equal; f_equal; ring. Qed.
Lemma qrot_tr_conj : forall q, m3tr (qrot q) = qrot (qconj q).
Proof. intros [w x y z]. unfold m3tr, qrot, qconj; cbn. f_equal; f_equal; ring. Qed.
Lemma qmul_assoc : forall a b c, qmul (qmul a b) c = qmul a (qmul b c).
Proof. intros [] [] []. unfold qmul; cbn. f_equal; ring. Qed.
Lemma qmul_1_l : forall a, qmul qone a = a.
Proof. intros []. unfold qmul, qone; cbn. f_equal; ring. Qed.
Lemma qmul_1_r : forall a, qmul a qone = a.
Proof. intros []. unfold qmul, qone; cbn. f_equal; ring. Qed.
Lemma qconj_mul : forall a b, qconj (qmul a b) = qmul (qconj b) (qconj a).
Proof. intros [] []. unfold qmul, qconj; cbn. f_equal; ring. Qed.
Lemma qconj_conj : forall a, qconj (qconj a) = a.
Proof. intros []. unfold qconj; cbn. f_equal; ring. Qed.
Lemma qmul_conj_l : forall a, qmul (qconj a) a = Quat (qnorm2 a) 0 0 0.
Proof. intros []. unfold qmul, qconj, qnorm2; cbn. f_equal; ring. Qed.
Lemma qmul_conj_r : forall a, qmul a (qconj a) = Quat (qnorm2 a) 0 0 0.
Proof. intros []. unfold qmul, qconj, qnorm2; cbn. f_equal; ring. Qed.

(** A small rotation on the left is one on the right, seen from the other side. *)
Lemma qpure_move : forall a t, qnorm2 a = 1 ->
  qmul (qpure t) a = qmul a (qpure (m3vec (qrot (qconj a)) t)).
Proof.
  intros a t Ha. rewrite (qrot_conj (qconj a)) by (rewrite qnorm2_conj; exact Ha).
  rewrite qconj_conj.
  assert (Hp : qpure (qvec (qmul (qmul (qconj a) (qpure t)) a)) = qmul (qmul (qconj a) (qpure t)) a).
  { destruct a as [w x y z], t as [u v s]. unfold qpure, qvec, qmul, qconj; cbn. f_equal; ring. }
  rewrite Hp, <- !qmul_assoc, qmul_conj_r, Ha.
  change (Quat 1 0 0 0) with qone. rewrite qmul_1_l. reflexivity.
Qed.

(** Rotating frames. *)
Lemma turns_rot : forall f q w, qnorm2 q = 1 -> turns f q w ->
  derivm (fun t => qrot (f t)) (m3mul (qrot q) (skew w)).
Proof.
  intros f q w Hq [H0 Hd]. destruct q as [a b c d], w as [u v s]. unfold qnorm2 in Hq. cbn [qw qx qy qz] in Hq.
  cbn [qmul qw qx qy qz v3x v3y v3z] in Hd. destruct Hd as (D1 & D2 & D3 & D4). cbn [qw qx qy qz] in D1, D2, D3, D4.
  assert (E1 : qw (f 0) = a) by (rewrite H0; reflexivity).
  assert (E2 : qx (f 0) = b) by (rewrite H0; reflexivity).
  assert (E3 : qy (f 0) = c) by (rewrite H0; reflexivity).
  assert (E4 : qz (f 0) = d) by (rewrite H0; reflexivity).
  assert (Eu : u = 2 * (u / 2)) by field. assert (Ev : v = 2 * (v / 2)) by field.
  assert (Es : s = 2 * (s / 2)) by field.
  revert D1 D2 D3 D4 Eu Ev Es. generalize (u / 2) (v / 2) (s / 2). intros u' v' s' D1 D2 D3 D4 -> -> ->.
  unfold derivm, deriv3, qrot; cbn [r1 r2 r3 v3x v3y v3z]; (s3; s3); der;
    rewrite ?E1, ?E2, ?E3, ?E4; unfold m3mul, m3tr, skew, v3dot, qmul; cbn [r1 r2 r3 v3x v3y v3z qw qx qy qz].
  all: rewrite <- ?Hq; ring.
Qed.

(** ** The matrices *)

Lemma hsum_ext : forall n f g, (forall c, (c < n)%nat -> f c = g c) -> hsum n f = hsum n g.
Proof.
  induction n as [|n IH]; intros f g H; cbn [hsum]; [reflexivity|].
  rewrite (IH f g) by (intros; apply H; lia). rewrite H by lia. reflexivity.
Qed.
Lemma hsum_zero : forall n f, (forall c, (c < n)%nat -> f c = 0) -> hsum n f = 0.
Proof.
  induction n as [|n IH]; intros f H; cbn [hsum]; [reflexivity|].
  rewrite IH by (intros; apply H; lia). rewrite H by lia. ring.
Qed.
Lemma hsum_add : forall n f g, hsum n (fun c => f c + g c) = hsum n f + hsum n g.
Proof. induction n as [|n IH]; intros f g; cbn [hsum]; [ring|rewrite IH; ring]. Qed.
Lemma hsum_window : forall n c0 nc f, (c0 + nc <= n)%nat ->
  (forall c, (c < n)%nat -> (c < c0 \/ c0 + nc <= c)%nat -> f c = 0) ->
  hsum n f = hsum nc (fun j => f (c0 + j)%nat).
Proof.
  induction n as [|n IH]; intros c0 nc f Hn H0; cbn [hsum].
  - assert (nc = 0)%nat by lia. subst nc. reflexivity.
  - destruct (Nat.eq_dec (c0 + nc) (S n)) as [He|He].
    + destruct nc as [|nc]; cbn [hsum].
      * rewrite H0 by lia. rewrite hsum_zero; [ring|]. intros c Hc. apply H0; lia.
      * rewrite (IH c0 nc f) by (try lia; intros; apply H0; lia).
        replace (c0 + nc)%nat with n by lia. reflexivity.
    + rewrite (H0 n) by lia. rewrite (IH c0 nc f); [ring|lia|]. intros; apply H0; lia.
Qed.

Lemma put_in : forall r0 c0 nr nc B H i j, (i < nr)%nat -> (j < nc)%nat ->
  put r0 c0 nr nc B H (r0 + i)%nat (c0 + j)%nat = B i j.
Proof.
  intros. unfold put.
  rewrite (proj2 (Nat.leb_le r0 (r0 + i)))%nat, (proj2 (Nat.ltb_lt (r0 + i) (r0 + nr)))%nat,
    (proj2 (Nat.leb_le c0 (c0 + j)))%nat, (proj2 (Nat.ltb_lt (c0 + j) (c0 + nc)))%nat by lia.
  cbn. f_equal; lia.
Qed.
Lemma put_out : forall r0 c0 nr nc B H r c, (c < c0 \/ c0 + nc <= c \/ r < r0 \/ r0 + nr <= r)%nat ->
  put r0 c0 nr nc B H r c = H r c.
Proof.
  intros r0 c0 nr nc B H r c Hc. unfold put.
  destruct (Nat.leb_spec r0 r), (Nat.ltb_spec r (r0 + nr)), (Nat.leb_spec c0 c), (Nat.ltb_spec c (c0 + nc));
    cbn; try reflexivity; exfalso; lia.
Qed.

Lemma hmul_put : forall n r0 c0 nr nc B H d i, (i < nr)%nat -> (c0 + nc <= n)%nat ->
  (forall j, (j < nc)%nat -> H (r0 + i)%nat (c0 + j)%nat = 0) ->
  hmul n (put r0 c0 nr nc B H) d (r0 + i) = hmul n H d (r0 + i) + hsum nc (fun j => B i j * d (c0 + j)%nat).
Proof.
  intros n r0 c0 nr nc B H d i Hi Hn H0. unfold hmul.
  transitivity (hsum n (fun c => H (r0 + i)%nat c * d c + (put r0 c0 nr nc B H (r0 + i)%nat c - H (r0 + i)%nat c) * d c)).
  { apply hsum_ext. intros. ring. }
  rewrite hsum_add. f_equal. rewrite (hsum_window n c0 nc) by
    (try assumption; intros c _ Hc; rewrite put_out by (destruct Hc; [left|right; left]; assumption); ring).
  apply hsum_ext. intros j Hj. rewrite put_in, H0 by assumption. ring.
Qed.
Lemma hmul_out : forall n r0 c0 nr nc B H d r, (r < r0 \/ r0 + nr <= r)%nat ->
  hmul n (put r0 c0 nr nc B H) d r = hmul n H d r.
Proof.
  intros n r0 c0 nr nc B H d r Hr. unfold hmul. apply hsum_ext. intros c _.
  rewrite put_out by (right; right; exact Hr). reflexivity.
Qed.
Lemma hmul_hzero : forall n d r, hmul n hzero d r = 0.
Proof. intros. apply hsum_zero. intros. unfold hzero. ring. Qed.

(** Nothing in the three rows from [r] on, columns [c] to [c + nc - 1]. *)
Definition blank (H : hmat) (r c nc : nat) : Prop :=
  forall i j, (i < 3)%nat -> (j < nc)%nat -> H (r + i)%nat (c + j)%nat = 0.
Lemma blank_hzero : forall r c nc, blank hzero r c nc.
Proof. intros r c nc i j _ _. reflexivity. Qed.
Lemma blank_put : forall r0 c0 nr nc B H r c k,
  (c + k <= c0 \/ c0 + nc <= c \/ r + 3 <= r0 \/ r0 + nr <= r)%nat ->
  blank H r c k -> blank (put r0 c0 nr nc B H) r c k.
Proof. intros r0 c0 nr nc B H r c k Hd Hb i j Hi Hj. rewrite put_out by lia. apply Hb; assumption. Qed.

Lemma hmul3_put33 : forall n r c A H d, (c + 3 <= n)%nat -> blank H r c 3 ->
  hmul3 n (put33 r c A H) d r = v3add (hmul3 n H d r) (m3vec A (seg d c)).
Proof.
  intros n r c A H d Hn Hb. unfold hmul3, put33.
  pose proof (hmul_put n r c 3 3 (m3at A) H d 0) as E0. rewrite !Nat.add_0_r in E0.
  rewrite E0 by (try lia; intros j Hj; rewrite <- (Nat.add_0_r r); apply Hb; lia).
  rewrite (hmul_put n r c 3 3 (m3at A) H d 1) by (try lia; intros; apply Hb; lia).
  rewrite (hmul_put n r c 3 3 (m3at A) H d 2) by (try lia; intros; apply Hb; lia).
  unfold v3add, m3vec, v3dot, seg. cbn [hsum m3at v3at v3x v3y v3z]. rewrite !Nat.add_0_r. f_equal; ring.
Qed.
Lemma hmul3_put31 : forall n r c a H d, (c + 1 <= n)%nat -> blank H r c 1 ->
  hmul3 n (put31 r c a H) d r = v3add (hmul3 n H d r) (v3scale (d c) a).
Proof.
  intros n r c a H d Hn Hb. unfold hmul3, put31.
  pose proof (hmul_put n r c 3 1 (fun i _ => v3at a i) H d 0) as E0. rewrite !Nat.add_0_r in E0.
  rewrite E0 by (try lia; intros j Hj; rewrite <- (Nat.add_0_r r); apply Hb; lia).
  rewrite (hmul_put n r c 3 1 _ H d 1) by (try lia; intros; apply Hb; lia).
  rewrite (hmul_put n r c 3 1 _ H d 2) by (try lia; intros; apply Hb; lia).
  unfold v3add, v3scale. cbn [hsum m3at v3at v3x v3y v3z]. rewrite !Nat.add_0_r. f_equal; ring.
Qed.
Lemma hmul3_out : forall n r0 c0 nr nc B H d r, (r + 3 <= r0 \/ r0 + nr <= r)%nat ->
  hmul3 n (put r0 c0 nr nc B H) d r = hmul3 n H d r.
Proof. intros. unfold hmul3. rewrite !hmul_out by lia. reflexivity. Qed.
Lemma hmul3_hzero : forall n d r, hmul3 n hzero d r = v3zero.
Proof. intros. unfold hmul3. rewrite !hmul_hzero. reflexivity. Qed.

Ltac blk := unfold put33, put31; repeat (apply blank_put; [lia|]); apply blank_hzero.

(** ** Position *)

Lemma m3neg_vec : forall A x, m3vec (m3neg A) x = v3neg (m3vec A x).
Proof. intros [[] [] []] []. unfold m3vec, m3neg, v3neg, v3dot; cbn. f_equal; ring. Qed.
Lemma m3mul_vec : forall A B x, m3vec (m3mul A B) x = m3vec A (m3vec B x).
Proof. intros [[] [] []] [[] [] []] []. unfold m3vec, m3mul, m3tr, v3dot; cbn. f_equal; ring. Qed.
Lemma m3scale_vec : forall k A x, m3vec (m3scale k A) x = v3scale k (m3vec A x).
Proof. intros k [[] [] []] []. unfold m3vec, m3scale, v3scale, v3dot; cbn. f_equal; ring. Qed.
Lemma m3eye_vec : forall x, m3vec m3eye x = x.
Proof. intros []. unfold m3vec, m3eye, v3dot; cbn. f_equal; ring. Qed.
Lemma m3zero_vec : forall x, m3vec m3zero x = v3zero.
Proof. intros []. unfold m3vec, m3zero, v3zero, v3dot; cbn. f_equal; ring. Qed.
Lemma m3vec_add : forall A x y, m3vec A (v3add x y) = v3add (m3vec A x) (m3vec A y).
Proof. intros [[] [] []] [] []. unfold m3vec, v3add, v3dot; cbn. f_equal; ring. Qed.
Lemma m3vec_neg : forall A x, m3vec A (v3neg x) = v3neg (m3vec A x).
Proof. intros [[] [] []] []. unfold m3vec, v3neg, v3dot; cbn. f_equal; ring. Qed.
Lemma m3vec_scale : forall A k x, m3vec A (v3scale k x) = v3scale k (m3vec A x).
Proof. intros [[] [] []] k []. unfold m3vec, v3scale, v3dot; cbn. f_equal; ring. Qed.
Lemma m3vec_zero : forall A, m3vec A v3zero = v3zero.
Proof. intros [[] [] []]. unfold m3vec, v3zero, v3dot; cbn. f_equal; ring. Qed.
Lemma skew_swap : forall x y, m3vec (skew x) y = v3neg (m3vec (skew y) x).
Proof. intros [] []. unfold m3vec, skew, v3neg, v3dot; cbn. f_equal; ring. Qed.
Lemma skew_scale : forall k x y, m3vec (skew (v3scale k x)) y = v3scale k (m3vec (skew x) y).
Proof. intros k [] []. unfold m3vec, skew, v3scale, v3dot; cbn. f_equal; ring. Qed.

(** A rotated vector. *)
Lemma deriv3_rot : forall q qt w x xt d, qnorm2 q = 1 -> turns qt q w -> moves xt x d ->
  deriv3 (fun t => m3vec (qrot (qt t)) (xt t)) (m3vec (qrot q) (v3add (v3neg (m3vec (skew x) w)) d)).
Proof.
  intros q qt w x xt d Hq Ht [Hx Hd]. pose proof (turns_rot _ _ _ Hq Ht) as Hm. destruct Ht as [H0 _].
  eapply deriv3_eq; [apply (deriv3_mvec _ _ _ _ Hm Hd)|].
  cbv beta. rewrite H0, Hx, m3mul_vec, <- m3vec_add, (skew_swap w x). reflexivity.
Qed.

Lemma position_H_mul : forall n l fx s d, pos_ordered n (l_p l) (l_q l) (l_pip l) ->
  hmul3 n (position_H l fx s) d 0 =
  v3add (seg d (l_p l))
    (m3vec (qrot (a_q s)) (v3add (v3neg (m3vec (skew (a_pip s)) (seg d (l_q l)))) (if fx then v3zero else seg d (l_pip l)))).
Proof.
  intros n l fx s d (H1 & H2 & H3). unfold position_H. cbv zeta.
  rewrite hmul3_put33 by (try lia; blk). rewrite hmul3_put33 by (try lia; blk).
  rewrite hmul3_put33 by (try lia; blk). rewrite hmul3_hzero, qrot_conj_tr, m3eye_vec, m3mul_vec, m3neg_vec.
  rewrite m3vec_add, m3vec_neg.
  destruct fx; rewrite ?m3zero_vec, ?m3vec_zero;
    unfold v3add, v3neg, v3zero; cbn [v3x v3y v3z]; f_equal; ring.
Qed.

Lemma position_deriv : forall n l fx s0 d (s : R -> pos_state) z,
  pos_ordered n (l_p l) (l_q l) (l_pip l) -> qnorm2 (a_q s0) = 1 ->
  moves (fun t => a_p (s t)) (a_p s0) (seg d (l_p l)) ->
  turns (fun t => a_q (s t)) (a_q s0) (seg d (l_q l)) ->
  moves (fun t => a_pip (s t)) (a_pip s0) (seg d (l_pip l)) ->
  (fx = true -> seg d (l_pip l) = v3zero) ->
  deriv3 (fun t => position_residual z (s t)) (v3neg (hmul3 n (position_H l fx s0) d 0)).
Proof.
  intros n l fx s0 d s z Hl Hq Hp Ht Hip Hf. rewrite position_H_mul by assumption.
  replace (if fx then v3zero else seg d (l_pip l)) with (seg d (l_pip l))
    by (destruct fx; [apply Hf; reflexivity|reflexivity]).
  eapply deriv3_ext with (f := fun t => v3sub z (v3add (a_p (s t)) (m3vec (qrot (a_q (s t))) (a_pip (s t))))).
  { intros t. unfold position_residual. cbv zeta. rewrite qrot_conj_tr. reflexivity. }
  eapply deriv3_eq.
  - apply deriv3_sub; [apply deriv3_const|]. apply deriv3_add; [apply Hp|].
    apply (deriv3_rot _ _ _ _ _ _ Hq Ht Hip).
  - unfold v3sub, v3neg, v3zero, v3add; cbn [v3x v3y v3z]; f_equal; ring.
Qed.

(** ** Pose *)

Definition lpose_ok (n : nat) (l : pose_layout) : Prop :=
  pose_ordered n (k_p l) (k_q l) (k_L l) (k_qwv l) (k_pwv l) (k_qic l) (k_pic l).

(** The point before scaling and rotating into the vision frame. *)
Definition pose_point (s : pose_state) : v3 := v3add (v3add (v3neg (b_pwv s)) (b_p s)) (m3vec (qrot (b_q s)) (b_pic s)).

Lemma pose_position_eq : forall s, pose_position s = v3scale (b_L s) (m3vec (qrot (b_qwv s)) (pose_point s)).
Proof. intros s. unfold pose_position, pose_point. cbv zeta. rewrite !qrot_conj_tr. reflexivity. Qed.

Lemma v3add_0_l : forall x, v3add v3zero x = x.
Proof. intros []. unfold v3add, v3zero; cbn. f_equal; ring. Qed.
Lemma if_vec : forall (b : bool) A x, m3vec (if b then m3zero else A) x = if b then v3zero else m3vec A x.
Proof. intros [] A x; [apply m3zero_vec|reflexivity]. Qed.
Lemma if_scale : forall (b : bool) k x, v3scale k (if b then v3zero else x) = if b then v3zero else v3scale k x.
Proof. intros [] k x; [unfold v3scale, v3zero; cbn; f_equal; ring|reflexivity]. Qed.

Lemma pose_H_mul_pos : forall n l f s d, lpose_ok n l ->
  hmul3 n (pose_H l f s) d 0 =
  v3add (v3add (v3add (v3add (v3add (m3vec (m3scale (b_L s) (qrot (b_qwv s))) (seg d (k_p l)))
    (m3vec (m3scale (b_L s) (m3mul (m3mul (m3neg (qrot (b_qwv s))) (qrot (b_q s))) (skew (b_pic s)))) (seg d (k_q l))))
    (if f_L f then v3zero else v3scale (d (k_L l)) (m3vec (qrot (b_qwv s)) (pose_point s))))
    (if f_qwv f then v3zero else m3vec (m3mul (m3neg (qrot (b_qwv s))) (skew (v3scale (b_L s) (pose_point s)))) (seg d (k_qwv l))))
    (if f_pic f then v3zero else m3vec (m3scale (b_L s) (m3mul (qrot (b_qwv s)) (qrot (b_q s)))) (seg d (k_pic l))))
    (if f_pwv f then v3zero else v3neg (seg d (k_pwv l))).
Proof.
  intros n l f s d (H1 & H2 & H3 & H4 & H5 & H6 & H7). unfold pose_H. cbv zeta.
  unfold put33 at 1. rewrite hmul3_out by lia. unfold put33 at 1. rewrite hmul3_out by lia.
  unfold put33 at 1. rewrite hmul3_out by lia.
  do 3 (rewrite hmul3_put33 by (try lia; blk)). rewrite hmul3_put31 by (try lia; blk).
  do 2 (rewrite hmul3_put33 by (try lia; blk)). rewrite hmul3_hzero.
  rewrite !if_vec, if_scale, m3neg_vec, m3eye_vec.
  assert (He : v3add (m3vec (m3mul (qrot (b_qwv s)) (qrot (b_q s))) (b_pic s)) (m3vec (qrot (b_qwv s)) (v3add (v3neg (b_pwv s)) (b_p s)))
               = m3vec (qrot (b_qwv s)) (pose_point s)).
  { unfold pose_point. rewrite m3mul_vec, <- m3vec_add. f_equal. unfold v3add; cbn; f_equal; ring. }
  rewrite He. fold (pose_point s).
  rewrite v3add_0_l. reflexivity.
Qed.

Lemma pose_H_mul_att : forall n l f s d, lpose_ok n l ->
  hmul3 n (pose_H l f s) d 3 =
  v3add (v3add (m3vec (qrot (qconj (b_qic s))) (seg d (k_q l)))
    (if f_qwv f then v3zero else m3vec (m3mul (qrot (qconj (b_qic s))) (m3tr (qrot (b_q s)))) (seg d (k_qwv l))))
    (if f_qic f then v3zero else seg d (k_qic l)).
Proof.
  intros n l f s d (H1 & H2 & H3 & H4 & H5 & H6 & H7). unfold pose_H. cbv zeta.
  do 3 (rewrite hmul3_put33 by (try lia; blk)).
  do 3 (unfold put33 at 1; rewrite hmul3_out by lia). unfold put31 at 1; rewrite hmul3_out by lia.
  do 2 (unfold put33 at 1; rewrite hmul3_out by lia). rewrite hmul3_hzero, !if_vec, m3eye_vec.
  rewrite v3add_0_l. reflexivity.
Qed.
Lemma pose_H_row6 : forall n l f s d, hmul n (pose_H l f s) d 6 = 0.
Proof.
  intros. unfold pose_H. cbv zeta. unfold put33, put31. rewrite !hmul_out by lia. apply hmul_hzero.
Qed.

(** The true derivative of the predicted position. *)
Lemma pose_position_deriv : forall s0 (s : R -> pose_state) dp dq dL dqwv dpwv dpic,
  qnorm2 (b_q s0) = 1 -> qnorm2 (b_qwv s0) = 1 ->
  moves (fun t => b_p (s t)) (b_p s0) dp -> turns (fun t => b_q (s t)) (b_q s0) dq ->
  varies (fun t => b_L (s t)) (b_L s0) dL -> turns (fun t => b_qwv (s t)) (b_qwv s0) dqwv ->
  moves (fun t => b_pwv (s t)) (b_pwv s0) dpwv -> moves (fun t => b_pic (s t)) (b_pic s0) dpic ->
  deriv3 (fun t => pose_position (s t))
    (let C_wv := qrot (b_qwv s0) in let C_q := qrot (b_q s0) in
     v3add (v3scale dL (m3vec C_wv (pose_point s0)))
       (v3scale (b_L s0) (m3vec C_wv (v3add (v3neg (m3vec (skew (pose_point s0)) dqwv))
          (v3add (v3add (v3neg dpwv) dp) (m3vec C_q (v3add (v3neg (m3vec (skew (b_pic s0)) dq)) dpic))))))).
Proof.
  intros s0 s dp dq dL dqwv dpwv dpic Hq Hw Hp Htq [HL0 HL] Htw Hpw Hpic.
  assert (Hpt : moves (fun t => pose_point (s t)) (pose_point s0)
    (v3add (v3add (v3neg dpwv) dp) (m3vec (qrot (b_q s0)) (v3add (v3neg (m3vec (skew (b_pic s0)) dq)) dpic)))).
  { split.
    - unfold pose_point. destruct Hp as [-> _], Htq as [-> _], Hpw as [-> _], Hpic as [-> _]. reflexivity.
    - unfold pose_point. apply deriv3_add; [apply deriv3_add; [apply deriv3_neg; apply Hpw|apply Hp]|].
      apply (deriv3_rot _ _ _ _ _ _ Hq Htq Hpic). }
  eapply deriv3_ext with (f := fun t => v3scale (b_L (s t)) (m3vec (qrot (b_qwv (s t))) (pose_point (s t)))).
  { intros t. symmetry. apply pose_position_eq. }
  eapply deriv3_eq; [apply (deriv3_scale _ _ _ _ HL (deriv3_rot _ _ _ _ _ _ Hw Htw Hpt))|].
  cbv beta zeta. rewrite HL0. destruct Htw as [-> _], Hpt as [-> _]. reflexivity.
Qed.

Lemma v3add_cancel : forall a b c, v3add a b = v3add a c -> b = c.
Proof. intros [] [] [] H. injection H as H1 H2 H3. f_equal; lra. Qed.
Lemma v3neg_inj : forall a b, v3neg a = v3neg b -> a = b.
Proof. intros [] [] H. injection H as H1 H2 H3. f_equal; lra. Qed.
Lemma deriv3_unique : forall f a b, deriv3 f a -> deriv3 f b -> a = b.
Proof.
  intros f [] [] (H1 & H2 & H3) (H4 & H5 & H6).
  f_equal; eapply deriv_unique; eassumption.
Qed.

(** What the matrix leaves out: the velocity of [p_wv] is neither scaled nor rotated. *)
Lemma pose_position_gap : forall n l f s d,
  lpose_ok n l ->
  (f_L f = true -> d (k_L l) = 0) -> (f_qwv f = true -> seg d (k_qwv l) = v3zero) ->
  (f_pic f = true -> seg d (k_pic l) = v3zero) -> (f_pwv f = true -> seg d (k_pwv l) = v3zero) ->
  let C_wv := qrot (b_qwv s) in let C_q := qrot (b_q s) in
  v3add (v3add (v3scale (d (k_L l)) (m3vec C_wv (pose_point s)))
       (v3scale (b_L s) (m3vec C_wv (v3add (v3neg (m3vec (skew (pose_point s)) (seg d (k_qwv l))))
          (v3add (v3add (v3neg (seg d (k_pwv l))) (seg d (k_p l))) (m3vec C_q (v3add (v3neg (m3vec (skew (b_pic s)) (seg d (k_q l)))) (seg d (k_pic l)))))))))
       (m3vec (m3scale (b_L s) C_wv) (seg d (k_pwv l)))
  = v3add (hmul3 n (pose_H l f s) d 0) (seg d (k_pwv l)).
Proof.
  intros n l f s d Hl FL Fw Fi Fp C_wv C_q. rewrite pose_H_mul_pos by assumption. fold C_wv C_q.
  assert (EL : (if f_L f then v3zero else v3scale (d (k_L l)) (m3vec C_wv (pose_point s)))
               = v3scale (d (k_L l)) (m3vec C_wv (pose_point s))).
  { destruct (f_L f); [|reflexivity]. rewrite FL by reflexivity. unfold v3scale, v3zero; cbn; f_equal; ring. }
  assert (Ew : forall A, (if f_qwv f then v3zero else m3vec A (seg d (k_qwv l))) = m3vec A (seg d (k_qwv l))).
  { intros A. destruct (f_qwv f); [|reflexivity]. rewrite Fw by reflexivity. symmetry. apply m3vec_zero. }
  assert (Ei : forall A, (if f_pic f then v3zero else m3vec A (seg d (k_pic l))) = m3vec A (seg d (k_pic l))).
  { intros A. destruct (f_pic f); [|reflexivity]. rewrite Fi by reflexivity. symmetry. apply m3vec_zero. }
  assert (Ep : (if f_pwv f then v3zero else v3neg (seg d (k_pwv l))) = v3neg (seg d (k_pwv l))).
  { destruct (f_pwv f); [|reflexivity]. rewrite Fp by reflexivity. unfold v3neg, v3zero; cbn; f_equal; ring. }
  rewrite EL, Ew, Ei, Ep.
  rewrite !m3scale_vec, !m3mul_vec, !m3neg_vec, !m3vec_add, !m3vec_neg, !skew_scale, !m3vec_scale.
  unfold v3add, v3scale, v3neg; cbn [v3x v3y v3z]; f_equal; ring.
Qed.

Lemma pose_pos_deriv : forall n l f s0 d (s : R -> pose_state) z_p z_q,
  lpose_ok n l -> qnorm2 (b_q s0) = 1 -> qnorm2 (b_qwv s0) = 1 ->
  moves (fun t => b_p (s t)) (b_p s0) (seg d (k_p l)) -> turns (fun t => b_q (s t)) (b_q s0) (seg d (k_q l)) ->
  varies (fun t => b_L (s t)) (b_L s0) (d (k_L l)) -> turns (fun t => b_qwv (s t)) (b_qwv s0) (seg d (k_qwv l)) ->
  moves (fun t => b_pwv (s t)) (b_pwv s0) (seg d (k_pwv l)) -> moves (fun t => b_pic (s t)) (b_pic s0) (seg d (k_pic l)) ->
  (f_L f = true -> d (k_L l) = 0) -> (f_qwv f = true -> seg d (k_qwv l) = v3zero) ->
  (f_pic f = true -> seg d (k_pic l) = v3zero) -> (f_pwv f = true -> seg d (k_pwv l) = v3zero) ->
  (deriv3 (fun t => fst (fst (pose_residual z_p z_q (s t)))) (v3neg (hmul3 n (pose_H l f s0) d 0))
   <-> m3vec (m3scale (b_L s0) (qrot (b_qwv s0))) (seg d (k_pwv l)) = seg d (k_pwv l)).
Proof.
  intros n l f s0 d s z_p z_q Hl Hq Hw Hp Htq HL Htw Hpw Hpic FL Fw Fi Fp.
  pose proof (pose_position_deriv _ _ _ _ _ _ _ _ Hq Hw Hp Htq HL Htw Hpw Hpic) as HD.
  cbv zeta in HD.
  pose proof (pose_position_gap n l f s0 d Hl FL Fw Fi Fp) as HG. cbv zeta in HG.
  revert HD HG. generalize (v3add (v3scale (d (k_L l)) (m3vec (qrot (b_qwv s0)) (pose_point s0)))
       (v3scale (b_L s0) (m3vec (qrot (b_qwv s0)) (v3add (v3neg (m3vec (skew (pose_point s0)) (seg d (k_qwv l))))
          (v3add (v3add (v3neg (seg d (k_pwv l))) (seg d (k_p l))) (m3vec (qrot (b_q s0)) (v3add (v3neg (m3vec (skew (b_pic s0)) (seg d (k_q l)))) (seg d (k_pic l))))))))).
  intros D HD HG.
  assert (HR : deriv3 (fun t => fst (fst (pose_residual z_p z_q (s t)))) (v3neg D)).
  { cbn [pose_residual fst]. eapply deriv3_eq; [apply deriv3_sub; [apply deriv3_const|exact HD]|].
    unfold v3sub, v3neg, v3zero; cbn; f_equal; ring. }
  split.
  - intros HH. pose proof (v3neg_inj _ _ (deriv3_unique _ _ _ HR HH)) as ->. eapply v3add_cancel. exact HG.
  - intros HH. rewrite HH in HG. replace (hmul3 n (pose_H l f s0) d 0) with D; [exact HR|].
    revert HG. destruct D, (hmul3 n (pose_H l f s0) d 0), (seg d (k_pwv l)). intros HG.
    injection HG as G1 G2 G3. f_equal; lra.
Qed.

(** *** Attitude *)

Lemma half_rot : forall A w, Quat 0 (v3x (m3vec A w) / 2) (v3y (m3vec A w) / 2) (v3z (m3vec A w) / 2)
  = qpure (m3vec A (V3 (v3x w / 2) (v3y w / 2) (v3z w / 2))).
Proof. intros [[] [] []] []. unfold qpure, m3vec, v3dot; cbn. f_equal; field. Qed.

Lemma turns_mul : forall f g a b u w, qnorm2 b = 1 -> turns f a u -> turns g b w ->
  turns (fun t => qmul (f t) (g t)) (qmul a b) (v3add (m3vec (qrot (qconj b)) u) w).
Proof.
  intros f g a b u w Hb [Hf Df] [Hg Dg]. split; [cbv beta; rewrite Hf, Hg; reflexivity|].
  eapply derivq_eq; [apply (derivq_mul _ _ _ _ Df Dg)|]. cbv zeta. rewrite Hf, Hg.
  set (u2 := Quat 0 (v3x u / 2) (v3y u / 2) (v3z u / 2)).
  assert (E : qmul (qmul a u2) b = qmul (qmul a b) (qpure (m3vec (qrot (qconj b)) (V3 (v3x u / 2) (v3y u / 2) (v3z u / 2))))).
  { rewrite qmul_assoc. change u2 with (qpure (V3 (v3x u / 2) (v3y u / 2) (v3z u / 2))).
    rewrite qpure_move by exact Hb. symmetry. apply qmul_assoc. }
  rewrite E, <- half_rot. rewrite <- qmul_assoc. generalize (m3vec (qrot (qconj b)) u) (qmul a b).
  intros [] []. unfold qmul, v3add; cbn. f_equal; field.
Qed.

Lemma pose_attitude_turns : forall n l f s0 d (s : R -> pose_state),
  lpose_ok n l -> qnorm2 (b_q s0) = 1 -> qnorm2 (b_qic s0) = 1 ->
  turns (fun t => b_q (s t)) (b_q s0) (seg d (k_q l)) -> turns (fun t => b_qwv (s t)) (b_qwv s0) (seg d (k_qwv l)) ->
  turns (fun t => b_qic (s t)) (b_qic s0) (seg d (k_qic l)) ->
  (f_qwv f = true -> seg d (k_qwv l) = v3zero) -> (f_qic f = true -> seg d (k_qic l) = v3zero) ->
  turns (fun t => pose_attitude (s t)) (pose_attitude s0) (hmul3 n (pose_H l f s0) d 3).
Proof.
  intros n l f s0 d s Hl Hq Hic Htq Htw Hti Fw Fi. rewrite pose_H_mul_att by assumption.
  pose proof (turns_mul _ _ _ _ _ _ Hic (turns_mul _ _ _ _ _ _ Hq Htw Htq) Hti) as HT.
  unfold pose_attitude.
  match type of HT with turns _ _ ?x => match goal with |- turns _ _ ?y => replace y with x; [exact HT|] end end.
  rewrite m3mul_vec, qrot_tr_conj, m3vec_add.
  assert (Ew : (if f_qwv f then v3zero else m3vec (qrot (qconj (b_qic s0))) (m3vec (qrot (qconj (b_q s0))) (seg d (k_qwv l))))
               = m3vec (qrot (qconj (b_qic s0))) (m3vec (qrot (qconj (b_q s0))) (seg d (k_qwv l)))).
  { destruct (f_qwv f); [|reflexivity]. rewrite Fw by reflexivity. rewrite !m3vec_zero. reflexivity. }
  assert (Ei : (if f_qic f then v3zero else seg d (k_qic l)) = seg d (k_qic l)).
  { destruct (f_qic f); [|reflexivity]. symmetry. apply Fi. reflexivity. }
  rewrite Ew, Ei. unfold v3add; cbn; f_equal; ring.
Qed.

(** The attitude error as an angle. *)
Lemma small_angle_deriv : forall f w, turns f qone w -> deriv3 (fun t => small_angle (f t)) w.
Proof.
  intros f [u v s] [H0 (D1 & D2 & D3 & D4)]. cbn [qmul qone qw qx qy qz v3x v3y v3z] in D1, D2, D3, D4.
  assert (E1 : qw (f 0) = 1) by (rewrite H0; reflexivity).
  assert (E2 : qx (f 0) = 0) by (rewrite H0; reflexivity).
  assert (E3 : qy (f 0) = 0) by (rewrite H0; reflexivity).
  assert (E4 : qz (f 0) = 0) by (rewrite H0; reflexivity).
  assert (Hn : qw (f 0) <> 0) by (rewrite E1; lra).
  unfold small_angle. s3; cbn [v3x v3y v3z].
  all: eapply deriv_eq; [eapply deriv_mul; [apply deriv_div; [eassumption|eassumption|exact Hn]|apply deriv_const]|].
  all: cbv beta; rewrite ?E1, ?E2, ?E3, ?E4; unfold qmul, qone; cbn [qw qx qy qz]; field.
Qed.
Lemma turns_conj_mul : forall f q w, qnorm2 q = 1 -> turns f q w -> turns (fun t => qmul (qconj (f t)) q) qone (v3neg w).
Proof.
  intros f q w Hq [H0 D]. split.
  - rewrite H0, qmul_conj_l, Hq. reflexivity.
  - pose proof (derivq_mul _ (fun _ => q) _ (Quat 0 0 0 0) (derivq_conj _ _ D)) as HM.
    eapply derivq_eq; [apply HM; s4; cbn; apply deriv_const|]. cbv zeta beta. clear HM D.
    rewrite H0, qconj_mul, qmul_assoc, qmul_conj_l, Hq. destruct w. unfold qmul, qconj, qone, v3neg; cbn. f_equal; field.
Qed.
Lemma pose_attitude_unit : forall s, qnorm2 (b_q s) = 1 -> qnorm2 (b_qwv s) = 1 -> qnorm2 (b_qic s) = 1 ->
  qnorm2 (pose_attitude s) = 1.
Proof. intros s H1 H2 H3. unfold pose_attitude. rewrite !qnorm2_mul, H1, H2, H3. ring. Qed.

Lemma pose_att_deriv : forall n l f s0 d (s : R -> pose_state) z_p,
  lpose_ok n l -> qnorm2 (b_q s0) = 1 -> qnorm2 (b_qwv s0) = 1 -> qnorm2 (b_qic s0) = 1 ->
  turns (fun t => b_q (s t)) (b_q s0) (seg d (k_q l)) -> turns (fun t => b_qwv (s t)) (b_qwv s0) (seg d (k_qwv l)) ->
  turns (fun t => b_qic (s t)) (b_qic s0) (seg d (k_qic l)) ->
  (f_qwv f = true -> seg d (k_qwv l) = v3zero) -> (f_qic f = true -> seg d (k_qic l) = v3zero) ->
  deriv3 (fun t => snd (fst (pose_residual z_p (pose_attitude s0) (s t)))) (v3neg (hmul3 n (pose_H l f s0) d 3)).
Proof.
  intros. cbn [pose_residual fst snd]. apply small_angle_deriv. apply turns_conj_mul.
  - apply pose_attitude_unit; assumption.
  - eapply pose_attitude_turns; eassumption.
Qed.

(** *** The correction *)

Lemma correction_turns : forall q w, qnorm2 q = 1 ->
  turns (fun t => qnormalize (qmul q (small_quat (v3scale t w)))) q w.
Proof.
  intros q w Hq. split.
  - rewrite qnormalize_id.
    + unfold small_quat, v3norm2, v3scale, v3dot; cbn [v3x v3y v3z].
      destruct (Rlt_dec _ 1) as [H|H]; [|exfalso; apply H; lra].
      replace (1 - _) with 1 by field. rewrite sqrt_1. destruct q. unfold qmul; cbn. f_equal; ring.
    + rewrite qnorm2_mul, Hq, small_quat_unit. ring.
  - assert (Hn : 0 <= v3norm2 w).
    { unfold v3norm2, v3dot. pose proof (Rle_0_sqr (v3x w)). pose proof (Rle_0_sqr (v3y w)).
      pose proof (Rle_0_sqr (v3z w)). unfold Rsqr in *. lra. }
    set (g := fun t => qmul q (Quat (sqrt (1 - t * t * (v3norm2 w / 4))) (v3x w / 2 * t) (v3y w / 2 * t) (v3z w / 2 * t))).
    assert (HE : forall t, Rabs t < / (1 + v3norm2 w) -> qnormalize (qmul q (small_quat (v3scale t w))) = g t).
    { intros t Ht. rewrite qnormalize_id by (rewrite qnorm2_mul, Hq, small_quat_unit; ring).
      unfold g. f_equal. unfold small_quat.
      replace (v3norm2 (v3scale t w)) with (t * t * v3norm2 w)
        by (unfold v3norm2, v3scale, v3dot; cbn [v3x v3y v3z]; ring).
      assert (Hlt : t * t * v3norm2 w / 4 < 1).
      { assert (Ha : Rabs t * (1 + v3norm2 w) < 1).
        { apply (Rmult_lt_compat_r (1 + v3norm2 w)) in Ht; [|lra]. rewrite Rinv_l in Ht by lra. exact Ht. }
        assert (Hb : Rabs t < 1).
        { pose proof (Rabs_pos t). nra. }
        assert (Hc : t * t = Rabs t * Rabs t) by (rewrite <- Rabs_mult; symmetry; apply Rabs_pos_eq; pose proof (Rle_0_sqr t); exact H).
        rewrite Hc. pose proof (Rabs_pos t). nra. }
      destruct (Rlt_dec _ 1) as [_|Hx]; [|exfalso; exact (Hx Hlt)].
      cbn [v3scale v3x v3y v3z]. f_equal; try (f_equal; field); field. }
    assert (HS : deriv (fun t => sqrt (1 - t * t * (v3norm2 w / 4))) 0).
    { eapply deriv_eq; [apply deriv_sqrt; [dd|cbv beta; lra]|]. cbv beta.
      replace (1 - 0 * 0 * (v3norm2 w / 4)) with 1 by field. rewrite sqrt_1. field. }
    assert (HG : derivq g (qmul q (Quat 0 (v3x w / 2) (v3y w / 2) (v3z w / 2)))).
    { unfold g. s4; unfold qmul; cbn [qw qx qy qz].
      all: der; replace (1 - 0 * 0 * (v3norm2 w / 4)) with 1 by field; rewrite ?sqrt_1; field. }
    assert (Hi : 0 < / (1 + v3norm2 w)) by (apply Rinv_0_lt_compat; lra).
    destruct HG as (G1 & G2 & G3 & G4).
    s4; (eapply deriv_loc; [exact Hi| |eassumption]); intros t Ht; cbv beta; rewrite (HE t Ht); reflexivity.
Qed.

(** ** Pressure *)

Lemma hmul_put11 : forall n c x H d, (c < n)%nat -> H 0%nat c = 0 ->
  hmul n (put11 0 c x H) d 0 = hmul n H d 0 + x * d c.
Proof.
  intros n c x H d Hc H0. unfold put11.
  pose proof (hmul_put n 0 c 1 1 (fun _ _ => x) H d 0) as E. cbn [Nat.add hsum] in E. rewrite E.
  - rewrite Nat.add_0_r. ring.
  - lia.
  - lia.
  - intros j Hj. assert (j = 0)%nat by lia. subst j. rewrite Nat.add_0_r. exact H0.
Qed.
Lemma pressure_H_mul : forall n i_p i_bp d, (i_p + 3 <= i_bp)%nat -> (i_bp < n)%nat ->
  hmul n (pressure_H i_p i_bp) d 0 = d (i_p + 2)%nat - d i_bp.
Proof.
  intros n i_p i_bp d H1 H2. unfold pressure_H.
  rewrite hmul_put11, hmul_put11; [rewrite hmul_hzero; ring|lia|reflexivity|lia|].
  unfold put11. rewrite put_out by lia. reflexivity.
Qed.

(** ** Distance *)

Lemma hmul_put13 : forall n r c a H d, (c + 3 <= n)%nat -> (forall j, (j < 3)%nat -> H r (c + j)%nat = 0) ->
  hmul n (put13 r c a H) d r = hmul n H d r + v3dot a (seg d c).
Proof.
  intros n r c a H d Hn H0. unfold put13.
  pose proof (hmul_put n r c 1 3 (fun _ j => v3at a j) H d 0) as E. rewrite !Nat.add_0_r in E. rewrite E.
  - cbn [hsum]. unfold v3dot, seg. cbn [v3at v3x v3y v3z]. rewrite Nat.add_0_r. ring.
  - lia.
  - exact Hn.
  - exact H0.
Qed.
Lemma distance_H_mul : forall n l s d, pos_ordered n (l_p l) (l_q l) (l_pip l) ->
  a_pip s = v3zero ->
  hmul n (distance_H l s) d 0 =
  v3dot (a_p s) (seg d (l_p l)) / radius (a_p s) + v3dot (m3vec (qrot (a_q s)) (a_p s)) (seg d (l_pip l)) / radius (a_p s).
Proof.
  intros n l s d (H1 & H2 & H3) H0. unfold distance_H. cbv zeta.
  rewrite hmul_put13 by (try lia; intros j Hj; unfold put13; rewrite !put_out by lia; reflexivity).
  rewrite hmul_put13 by (try lia; intros j Hj; unfold put13; rewrite !put_out by lia; reflexivity).
  rewrite hmul_put13 by (try lia; intros j Hj; reflexivity).
  rewrite hmul_hzero, H0. rewrite <- (qrot_conj_tr (a_q s)). fold (radius (a_p s)). unfold v3at at 1 2 3 4 5 6.
  unfold radius. cbn [v3at]. fold (radius (a_p s)).
  unfold v3dot, m3vec, m3tr, m3at, v3zero, v3dot. cbn [v3at v3x v3y v3z r1 r2 r3].
  unfold Rdiv. ring.
Qed.

Lemma sensed_eq : forall s, sensed_point s = v3add (a_p s) (m3vec (qrot (a_q s)) (a_pip s)).
Proof. intros s. unfold sensed_point. rewrite qrot_conj_tr. reflexivity. Qed.
Lemma sensed_moves : forall s0 (s : R -> pos_state) dp dq dpip, qnorm2 (a_q s0) = 1 ->
  moves (fun t => a_p (s t)) (a_p s0) dp -> turns (fun t => a_q (s t)) (a_q s0) dq ->
  moves (fun t => a_pip (s t)) (a_pip s0) dpip -> a_pip s0 = v3zero ->
  moves (fun t => sensed_point (s t)) (a_p s0) (v3add dp (m3vec (qrot (a_q s0)) dpip)).
Proof.
  intros s0 s dp dq dpip Hq Hp Ht Hip H0. split.
  - rewrite sensed_eq. destruct Hp as [-> _], Hip as [-> _]. rewrite H0, m3vec_zero.
    destruct (a_p s0); unfold v3add, v3zero; cbn; f_equal; ring.
  - eapply deriv3_ext with (f := fun t => v3add (a_p (s t)) (m3vec (qrot (a_q (s t))) (a_pip (s t)))).
    { intros t. symmetry. apply sensed_eq. }
    eapply deriv3_eq.
    + apply deriv3_add; [apply Hp|]. apply (deriv3_rot _ _ _ _ _ _ Hq Ht Hip).
    + do 2 f_equal. rewrite H0. destruct dpip, (seg (fun _ => 0) 0), dq. unfold v3add, v3neg, m3vec, skew, v3zero, v3dot; cbn. f_equal; ring.
Qed.
Lemma radius_deriv : forall f x d, moves f x d -> x <> v3zero ->
  deriv (fun t => radius (f t)) (v3dot x d / radius x).
Proof.
  intros f [a b c] [u v w] [H0 (D1 & D2 & D3)] Hx. unfold radius. cbn [v3x v3y v3z] in *.
  assert (E1 : v3x (f 0) = a) by (rewrite H0; reflexivity).
  assert (E2 : v3y (f 0) = b) by (rewrite H0; reflexivity).
  assert (E3 : v3z (f 0) = c) by (rewrite H0; reflexivity).
  assert (Hp : 0 < a * a + b * b + c * c).
  { destruct (Req_EM_T a 0) as [->|Ha]; [destruct (Req_EM_T b 0) as [->|Hb]; [destruct (Req_EM_T c 0) as [->|Hc]|]|].
    - exfalso. apply Hx. reflexivity.
    - pose proof (Rsqr_pos_lt c Hc). unfold Rsqr in *. lra.
    - pose proof (Rsqr_pos_lt b Hb). pose proof (Rle_0_sqr c). unfold Rsqr in *. lra.
    - pose proof (Rsqr_pos_lt a Ha). pose proof (Rle_0_sqr b). pose proof (Rle_0_sqr c). unfold Rsqr in *. lra. }
  eapply deriv_eq; [apply deriv_sqrt; [dd|cbv beta; rewrite E1, E2, E3; exact Hp]|].
  cbv beta. rewrite E1, E2, E3. unfold v3dot; cbn [v3x v3y v3z]. field.
  apply Rgt_not_eq. apply sqrt_lt_R0. exact Hp.
Qed.

(** ** Angles *)

Lemma deriv_near : forall f a eps, deriv f a -> 0 < eps -> exists e, 0 < e /\ forall t, Rabs t < e -> Rabs (f t - f 0) < eps.
Proof.
  intros f a eps Hf Hp.
  assert (Hc : continuity_pt f 0) by (apply derivable_continuous_pt; exists a; exact Hf).
  destruct (Hc eps Hp) as (e & He & H). exists e. split; [exact He|]. intros t Ht.
  destruct (Req_dec t 0) as [->|Hn].
  - replace (f 0 - f 0) with 0 by ring. rewrite Rabs_R0. exact Hp.
  - apply (H t). split; [split; [exact I|auto]|]. cbn. unfold R_dist. rewrite Rminus_0_r. exact Ht.
Qed.
Lemma deriv_pos : forall f a, deriv f a -> 0 < f 0 -> exists e, 0 < e /\ forall t, Rabs t < e -> 0 < f t.
Proof.
  intros f a Hf H0. destruct (deriv_near f a (f 0) Hf H0) as (e & He & H). exists e. split; [exact He|].
  intros t Ht. specialize (H t Ht). apply Rabs_def2 in H. lra.
Qed.
Lemma deriv_neg_sign : forall f a, deriv f a -> f 0 < 0 -> exists e, 0 < e /\ forall t, Rabs t < e -> f t < 0.
Proof.
  intros f a Hf H0. destruct (deriv_pos (fun t => - f t) (- a) (deriv_neg _ _ Hf)) as (e & He & H); [lra|].
  exists e. split; [exact He|]. intros t Ht. specialize (H t Ht). lra.
Qed.
Lemma deriv_acos : forall f a, deriv f a -> -1 < f 0 < 1 ->
  deriv (fun t => acos (f t)) (-1 / sqrt (1 - f 0 * f 0) * a).
Proof.
  intros f a Hf H0. apply deriv_comp; [exact Hf|].
  pose proof (derive_pt_acos (f 0) H0) as E. apply derive_pt_eq_1 in E. exact E.
Qed.
Lemma deriv_atan : forall f a, deriv f a -> deriv (fun t => atan (f t)) (/ (1 + f 0 * f 0) * a).
Proof.
  intros f a Hf. apply deriv_comp; [exact Hf|].
  replace (f 0 * f 0) with (f 0 ^ 2) by ring. apply derivable_pt_lim_atan.
Qed.

(** The azimuth, where it is defined and continuous: not on the half line y = 0, x <= 0. *)
Lemma phi_upper : forall x y z, 0 < y -> phi_of (V3 x y z) = Some (PI / 2 - atan (x / y)).
Proof.
  intros x y z Hy. unfold phi_of, atan_div; cbn [v3x v3y v3z].
  destruct (Req_EM_T x 0) as [->|Hx].
  - destruct (Rlt_dec 0 y); [|lra]. destruct (Rlt_dec 0 0); [lra|].
    replace (0 / y) with 0 by (field; lra). rewrite atan_0. f_equal. lra.
  - destruct (Rlt_dec x 0) as [Hl|Hl].
    + destruct (Rlt_dec y 0); [lra|]. destruct (Rlt_dec 0 y); [|lra].
      f_equal. replace (y / x) with (- / (- (x / y))) by (field; lra).
      rewrite atan_opp, atan_inv, atan_opp.
      * lra.
      * assert (0 < - x / y) by (apply Rdiv_lt_0_compat; lra). unfold Rdiv in *. lra.
    + f_equal. replace (y / x) with (/ (x / y)) by (field; lra). rewrite atan_inv; [reflexivity|].
      apply Rdiv_lt_0_compat; lra.
Qed.
Lemma phi_lower : forall x y z, y < 0 -> phi_of (V3 x y z) = Some (- (PI / 2) - atan (x / y)).
Proof.
  intros x y z Hy. unfold phi_of, atan_div; cbn [v3x v3y v3z].
  destruct (Req_EM_T x 0) as [->|Hx].
  - destruct (Rlt_dec 0 y); [lra|]. destruct (Rlt_dec y 0); [|lra]. destruct (Rlt_dec 0 0); [lra|].
    replace (0 / y) with 0 by (field; lra). rewrite atan_0. f_equal. lra.
  - destruct (Rlt_dec x 0) as [Hl|Hl].
    + destruct (Rlt_dec y 0); [|lra]. destruct (Rlt_dec 0 y); [lra|].
      f_equal. replace (y / x) with (/ (x / y)) by (field; lra). rewrite atan_inv; [lra|].
      assert (0 < (- x) / (- y)) by (apply Rdiv_lt_0_compat; lra). replace (x / y) with (- x / - y) by (field; lra). assumption.
    + f_equal. replace (y / x) with (- / (- (x / y))) by (field; lra).
      rewrite atan_opp, atan_inv, atan_opp; [lra|].
      assert (0 < x / - y) by (apply Rdiv_lt_0_compat; lra). replace (- (x / y)) with (x / - y) by (field; lra). assumption.
Qed.
Lemma phi_right : forall x y z, 0 < x -> phi_of (V3 x y z) = Some (atan (y / x)).
Proof.
  intros x y z Hx. unfold phi_of, atan_div; cbn [v3x v3y v3z].
  destruct (Req_EM_T x 0); [lra|]. destruct (Rlt_dec x 0); [lra|]. reflexivity.
Qed.

Lemma v3_eta : forall a, V3 (v3x a) (v3y a) (v3z a) = a.
Proof. intros []. reflexivity. Qed.

Lemma phi_deriv : forall f x d, moves f x d -> (v3y x <> 0 \/ 0 < v3x x) ->
  oderiv (fun t => phi_of (f t)) ((v3x x * v3y d - v3y x * v3x d) / (v3x x * v3x x + v3y x * v3y x)).
Proof.
  intros f x d [H0 (D1 & D2 & _)] Hx.
  assert (E1 : v3x (f 0) = v3x x) by (rewrite H0; reflexivity).
  assert (E2 : v3y (f 0) = v3y x) by (rewrite H0; reflexivity).
  destruct (Rtotal_order (v3y x) 0) as [Hy|[Hy|Hy]].
  - destruct (deriv_neg_sign _ _ D2) as (e & He & Hs); [rewrite E2; exact Hy|].
    exists (fun t => - (PI / 2) - atan (v3x (f t) / v3y (f t))), e. split; [exact He|]. split.
    + intros t Ht. rewrite <- (v3_eta (f t)) at 1. apply phi_lower. exact (Hs t Ht).
    + eapply deriv_eq.
      * apply deriv_sub; [apply deriv_const|]. apply deriv_atan. apply deriv_div; [exact D1|exact D2|rewrite E2; lra].
      * cbv beta. rewrite E1, E2. field. pose proof (Rsqr_pos_lt (v3y x)) as Q. pose proof (Rle_0_sqr (v3x x)) as Q2.
        unfold Rsqr in *. assert (0 < v3y x * v3y x) by (apply Q; lra). repeat split; lra.
  - destruct Hx as [Hx|Hx]; [exfalso; exact (Hx Hy)|].
    destruct (deriv_pos _ _ D1) as (e & He & Hs); [rewrite E1; exact Hx|].
    exists (fun t => atan (v3y (f t) / v3x (f t))), e. split; [exact He|]. split.
    + intros t Ht. rewrite <- (v3_eta (f t)) at 1. apply phi_right. exact (Hs t Ht).
    + eapply deriv_eq.
      * apply deriv_atan. apply deriv_div; [exact D2|exact D1|rewrite E1; lra].
      * cbv beta. rewrite E1, E2. field. pose proof (Rsqr_pos_lt (v3x x)) as Q. pose proof (Rle_0_sqr (v3y x)) as Q2.
        unfold Rsqr in *. assert (0 < v3x x * v3x x) by (apply Q; lra). repeat split; lra.
  - destruct (deriv_pos _ _ D2) as (e & He & Hs); [rewrite E2; exact Hy|].
    exists (fun t => PI / 2 - atan (v3x (f t) / v3y (f t))), e. split; [exact He|]. split.
    + intros t Ht. rewrite <- (v3_eta (f t)) at 1. apply phi_upper. exact (Hs t Ht).
    + eapply deriv_eq.
      * apply deriv_sub; [apply deriv_const|]. apply deriv_atan. apply deriv_div; [exact D1|exact D2|rewrite E2; lra].
      * cbv beta. rewrite E1, E2. field. pose proof (Rsqr_pos_lt (v3y x)) as Q. pose proof (Rle_0_sqr (v3x x)) as Q2.
        unfold Rsqr in *. assert (0 < v3y x * v3y x) by (apply Q; lra). repeat split; lra.
Qed.

Lemma radius_pos : forall x, x <> v3zero -> 0 < radius x.
Proof.
  intros [a b c] Hx. unfold radius; cbn [v3x v3y v3z]. apply sqrt_lt_R0.
  pose proof (Rle_0_sqr a). pose proof (Rle_0_sqr b). pose proof (Rle_0_sqr c). unfold Rsqr in *.
  destruct (Req_EM_T (a * a + b * b + c * c) 0) as [E|E]; [|lra].
  exfalso. apply Hx. unfold v3zero. f_equal; nra.
Qed.
Lemma radius_sq : forall x, radius x * radius x = v3x x * v3x x + v3y x * v3y x + v3z x * v3z x.
Proof.
  intros x. unfold radius. apply sqrt_def.
  pose proof (Rle_0_sqr (v3x x)). pose proof (Rle_0_sqr (v3y x)). pose proof (Rle_0_sqr (v3z x)). unfold Rsqr in *. lra.
Qed.

Lemma theta_deriv : forall f x d, moves f x d -> 0 < v3x x * v3x x + v3y x * v3y x ->
  oderiv (fun t => theta_of (f t))
    ((v3z x * (v3x x * v3x d + v3y x * v3y d) - (v3x x * v3x x + v3y x * v3y x) * v3z d)
     / (sqrt (v3x x * v3x x + v3y x * v3y x) * (v3x x * v3x x + v3y x * v3y x + v3z x * v3z x))).
Proof.
  intros f x d Hm Hr. pose proof Hm as [H0 (D1 & D2 & D3)].
  assert (Hx : x <> v3zero) by (intros ->; cbn in Hr; lra).
  pose proof (radius_deriv f x d Hm Hx) as DR. pose proof (radius_pos x Hx) as HR.
  destruct (deriv_pos _ _ DR) as (e & He & Hs); [rewrite H0; exact HR|].
  exists (fun t => acos (v3z (f t) / radius (f t))), e. split; [exact He|]. split.
  - intros t Ht. specialize (Hs t Ht). unfold theta_of. destruct (Req_EM_T (radius (f t)) 0); [lra|reflexivity].
  - set (rho := sqrt (v3x x * v3x x + v3y x * v3y x)).
    assert (Hrho : rho * rho = v3x x * v3x x + v3y x * v3y x) by (apply sqrt_def; lra).
    assert (Hp : 0 < rho) by (apply sqrt_lt_R0; exact Hr).
    pose proof (radius_sq x) as Hsq.
    assert (Hlt : -1 < v3z x / radius x < 1).
    { assert (Hz : v3z x * v3z x < radius x * radius x) by lra.
      assert (Hz2 : - radius x < v3z x < radius x) by (split; nra).
      split.
      - apply Rmult_lt_reg_r with (radius x); [exact HR|]. unfold Rdiv. rewrite Rmult_assoc, Rinv_l by lra. lra.
      - apply Rmult_lt_reg_r with (radius x); [exact HR|]. unfold Rdiv. rewrite Rmult_assoc, Rinv_l by lra. lra. }
    assert (Es : sqrt (1 - v3z x / radius x * (v3z x / radius x)) = rho / radius x).
    { apply sqrt_lem_1.
      - assert (v3z x / radius x * (v3z x / radius x) < 1) by nra. lra.
      - apply Rlt_le. apply Rdiv_lt_0_compat; assumption.
      - replace (rho / radius x * (rho / radius x)) with (rho * rho / (radius x * radius x)) by (field; lra).
        replace (1 - v3z x / radius x * (v3z x / radius x)) with ((radius x * radius x - v3z x * v3z x) / (radius x * radius x)) by (field; lra).
        f_equal. lra. }
    eapply deriv_eq.
    + apply deriv_acos.
      * apply deriv_div; [exact D3|exact DR|rewrite H0; lra].
      * cbv beta. rewrite H0. exact Hlt.
    + cbv beta. rewrite H0, Es, <- Hsq, <- Hrho. unfold v3dot.
      replace (v3z x * (v3x x * v3x d + v3y x * v3y d) - rho * rho * v3z d)
        with (v3z x * (v3x x * v3x d + v3y x * v3y d + v3z x * v3z d) - radius x * radius x * v3z d)
        by (rewrite Hsq, Hrho; ring).
      field. lra.
Qed.

Lemma put23_mul : forall n c B H d i, (i < 2)%nat -> (c + 3 <= n)%nat ->
  (forall j, (j < 3)%nat -> H i (c + j)%nat = 0) ->
  hmul n (put 0 c 2 3 B H) d i = hmul n H d i + v3dot (V3 (B i 0%nat) (B i 1%nat) (B i 2%nat)) (seg d c).
Proof.
  intros n c B H d i Hi Hn H0.
  pose proof (hmul_put n 0 c 2 3 B H d i Hi Hn H0) as E. cbn [Nat.add] in E. rewrite E.
  cbn [hsum]. unfold v3dot, seg; cbn [v3x v3y v3z]. rewrite Nat.add_0_r. ring.
Qed.
Lemma angle_H_mul : forall n l s d i, pos_ordered n (l_p l) (l_q l) (l_pip l) -> (i < 2)%nat ->
  a_pip s = v3zero -> seg d (l_pip l) = v3zero ->
  0 < v3x (a_p s) * v3x (a_p s) + v3y (a_p s) * v3y (a_p s) ->
  hmul n (angle_H l s) d i =
  let p := a_p s in let dp := seg d (l_p l) in
  match i with
  | O => (v3z p * (v3x p * v3x dp + v3y p * v3y dp) - (v3x p * v3x p + v3y p * v3y p) * v3z dp)
         / (sqrt (v3x p * v3x p + v3y p * v3y p) * (v3x p * v3x p + v3y p * v3y p + v3z p * v3z p))
  | _ => (v3x p * v3y dp - v3y p * v3x dp) / (v3x p * v3x p + v3y p * v3y p)
  end.
Proof.
  intros n l s d i (H1 & H2 & H3) Hi H0 Hd Hr. cbv zeta. unfold angle_H. cbv zeta.
  rewrite put23_mul by (try lia; intros j Hj; rewrite !put_out by lia; reflexivity).
  rewrite put23_mul by (try lia; intros j Hj; rewrite !put_out by lia; reflexivity).
  rewrite put23_mul by (try lia; intros j Hj; reflexivity).
  rewrite hmul_hzero, H0, Hd.
  assert (Hrho : sqrt (v3x (a_p s) * v3x (a_p s) + v3y (a_p s) * v3y (a_p s))
     * sqrt (v3x (a_p s) * v3x (a_p s) + v3y (a_p s) * v3y (a_p s)) = v3x (a_p s) * v3x (a_p s) + v3y (a_p s) * v3y (a_p s))
    by (apply sqrt_def; lra).
  assert (Hp : 0 < sqrt (v3x (a_p s) * v3x (a_p s) + v3y (a_p s) * v3y (a_p s))) by (apply sqrt_lt_R0; exact Hr).
  assert (Hz : forall A B : R, 0 < A -> A + v3z (a_p s) * v3z (a_p s) <> 0)
    by (intros A _ HA; pose proof (Rle_0_sqr (v3z (a_p s))); unfold Rsqr in *; lra).
  pose proof (Hz _ 0 Hr) as Hz'.
  destruct i as [|[|i]]; [| |lia]; unfold v3dot, v3zero; cbn [v3at v3x v3y v3z].
  - revert Hrho Hp. generalize (sqrt (v3x (a_p s) * v3x (a_p s) + v3y (a_p s) * v3y (a_p s))). intros rho Hrho Hp.
    rewrite <- Hrho in *. unfold Rdiv. ring_simplify. field. split; lra.
  - unfold Rdiv. ring_simplify. field. lra.
Qed.

Lemma wrap_id : forall r, - PI <= r <= PI -> wrap_residual r = r.
Proof.
  intros r Hr. unfold wrap_residual. destruct (Rlt_dec r (- PI)); [lra|]. destruct (Rlt_dec PI r); [lra|reflexivity].
Qed.
Lemma oderiv_map : forall f l (h : R -> R) k, oderiv f l ->
  (exists e0 v, f 0 = Some v /\ 0 < e0 /\ forall x, Rabs (x - v) < e0 -> h x = k - x) ->
  oderiv (fun t => match f t with Some x => Some (h x) | None => None end) (- l).
Proof.
  intros f l h k (g & e & He & Hf & Hg) (e0 & v & Hv & He0 & Hh).
  assert (Hgv : g 0 = v).
  { assert (E := Hf 0). rewrite Rabs_R0 in E. specialize (E He). rewrite Hv in E. injection E as E. congruence. }
  destruct (deriv_near g l e0 Hg He0) as (e1 & He1 & Hn). rewrite Hgv in Hn.
  exists (fun t => k - g t), (Rmin e e1). split; [apply Rmin_glb_lt; assumption|]. split.
  - intros t Ht. rewrite Hf by (eapply Rlt_le_trans; [exact Ht|apply Rmin_l]). rewrite Hh; [reflexivity|].
    apply Hn. eapply Rlt_le_trans; [exact Ht|apply Rmin_r].
  - eapply deriv_eq; [apply deriv_sub; [apply deriv_const|exact Hg]|]. ring.
Qed.

(** ** Relative poses *)

(** [turns] with factors that do not move. *)
Lemma turns_left : forall f q w c, turns f q w -> turns (fun t => qmul c (f t)) (qmul c q) w.
Proof.
  intros f q w c [H0 D]. split; [cbv beta; rewrite H0; reflexivity|].
  eapply derivq_eq; [apply (fun H => derivq_mul (fun _ => c) f (Quat 0 0 0 0) _ H D); s4; cbn; apply deriv_const|].
  cbv zeta beta. rewrite <- qmul_assoc. generalize (qmul (qmul c q) (Quat 0 (v3x w / 2) (v3y w / 2) (v3z w / 2))). clear D H0.
  intros []. destruct (f 0). unfold qmul; cbn. f_equal; ring.
Qed.
Lemma turns_const : forall q, turns (fun _ => q) q v3zero.
Proof.
  intros q. split; [reflexivity|]. destruct q. unfold qmul; cbn. s4; cbn.
  all: eapply deriv_eq; [apply deriv_const|field].
Qed.
Lemma turns_right : forall f q w c, qnorm2 c = 1 -> turns f q w ->
  turns (fun t => qmul (f t) c) (qmul q c) (m3vec (qrot (qconj c)) w).
Proof.
  intros f q w c Hc HT. pose proof (turns_mul _ _ _ _ _ _ Hc HT (turns_const c)) as H.
  match type of H with turns _ _ ?x => replace (m3vec (qrot (qconj c)) w) with x; [exact H|] end.
  destruct (m3vec _ _). unfold v3add, v3zero; cbn. f_equal; ring.
Qed.

Lemma pose_rel_attitude : forall old new0 (new : R -> pose_state) z_p z_p0 w,
  qnorm2 (pose_attitude old) = 1 -> qnorm2 (pose_attitude new0) = 1 ->
  turns (fun t => pose_attitude (new t)) (pose_attitude new0) w ->
  deriv3 (fun t => snd (fst (pose_rel_residual z_p0 (pose_attitude old) old z_p (pose_attitude new0) (new t))))
    (m3vec (qrot (qmul (qconj (pose_attitude old)) (pose_attitude new0))) w).
Proof.
  intros old new0 new z_p z_p0 w Ho Hn HT. cbn [pose_rel_residual fst snd].
  set (c := qmul (qconj (pose_attitude new0)) (pose_attitude old)).
  assert (Hc : qnorm2 c = 1) by (unfold c; rewrite qnorm2_mul, qnorm2_conj, Hn, Ho; ring).
  assert (Ec : qconj c = qmul (qconj (pose_attitude old)) (pose_attitude new0))
    by (unfold c; rewrite qconj_mul, qconj_conj; reflexivity).
  pose proof (turns_right _ _ _ _ Hc (turns_left _ _ _ (qconj (pose_attitude old)) HT)) as H.
  rewrite Ec in H. apply small_angle_deriv.
  destruct H as [H0 D]. rewrite <- Ec, qmul_conj_l, Hc in H0, D. change (Quat 1 0 0 0) with qone in H0, D.
  rewrite Ec in D.
  assert (E : forall t, qmul (qmul (qconj (pose_attitude old)) (pose_attitude (new t))) c
      = qmul (qconj (qmul (qconj (pose_attitude (new t))) (pose_attitude old))) c)
    by (intros t; rewrite (qconj_mul (qconj _)), qconj_conj; reflexivity).
  split.
  - rewrite <- E. exact H0.
  - destruct D as (D1 & D2 & D3 & D4).
    s4; (eapply deriv_ext; [|eassumption]); intros t; cbv beta; rewrite E; reflexivity.
Qed.

(** ** Initialisation *)

Lemma v3zero_unscale : forall k x, k <> 0 -> v3scale k (v3scale (/ k) x) = x.
Proof. intros k [] Hk. unfold v3scale; cbn. f_equal; field; exact Hk. Qed.
Lemma qrot_one : qrot qone = m3eye.
Proof. unfold qrot, qone, m3eye; cbn. f_equal; f_equal; ring. Qed.
Lemma qconj_one : qconj qone = qone.
Proof. unfold qconj, qone; cbn. f_equal; ring. Qed.

Lemma position_init_ok : forall yaw p_vc p_ip, position_residual p_vc (position_init yaw p_vc p_ip) = v3zero.
Proof.
  intros yaw p_vc p_ip. unfold position_residual, position_init; cbn [a_p a_q a_pip]. rewrite qrot_conj_tr.
  destruct p_vc, (m3vec _ _). unfold v3sub, v3add, v3zero; cbn. f_equal; ring.
Qed.

Lemma qnormalize_scale : forall q, exists k, qnormalize q = qscale k q.
Proof. intros q. eexists. reflexivity. Qed.
(** A multiple of the conjugate has no angle. *)
Lemma small_angle_real : forall k, small_angle (Quat k 0 0 0) = v3zero.
Proof. intros k. unfold small_angle, v3zero, Rdiv; cbn [qw qx qy qz]. f_equal; ring. Qed.

Lemma pose_init_ok : forall scale p_vc q_cv p_ic q_ic0, scale <> 0 -> qnorm2 q_ic0 <> 0 ->
  pose_residual p_vc q_cv (pose_init true scale p_vc q_cv p_ic q_ic0) = (v3zero, v3zero, 0).
Proof.
  intros scale p_vc q_cv p_ic q_ic0 Hs Hq. unfold pose_residual.
  assert (Hic : qnorm2 (qnormalize q_ic0) = 1) by (apply qnormalize_unit; exact Hq).
  set (s := pose_init true scale p_vc q_cv p_ic q_ic0).
  assert (E1 : pose_position s = p_vc).
  { rewrite pose_position_eq. unfold pose_point, s, pose_init; cbn [b_p b_q b_L b_qwv b_pwv b_qic b_pic].
    rewrite qconj_one, qrot_one, !m3eye_vec.
    rewrite <- (v3zero_unscale scale p_vc Hs) at 2. f_equal. destruct (m3vec _ _), (v3scale (/ scale) p_vc).
    unfold v3add, v3sub, v3neg, v3zero; cbn. f_equal; ring. }
  assert (E2 : small_angle (qmul (qconj (pose_attitude s)) q_cv) = v3zero).
  { unfold pose_attitude, s, pose_init; cbn [b_q b_qwv b_qic]. rewrite qmul_1_l, qmul_1_r.
    destruct (qnormalize_scale (qconj (qmul (qnormalize q_ic0) (qconj q_cv)))) as [k Ek]. rewrite Ek.
    rewrite (qconj_mul (qnormalize q_ic0)), qconj_conj. revert Hic. generalize (qnormalize q_ic0). intros c Hc.
    assert (E : qmul (qscale k (qmul q_cv (qconj c))) c = qscale k q_cv).
    { transitivity (qscale k (qmul (qmul q_cv (qconj c)) c)).
      - destruct (qmul q_cv (qconj c)), c. unfold qmul, qscale; cbn. f_equal; ring.
      - rewrite qmul_assoc, qmul_conj_l, Hc. f_equal. apply qmul_1_r. }
    rewrite E. transitivity (small_angle (Quat (k * qnorm2 q_cv) 0 0 0)); [|apply small_angle_real].
    f_equal. destruct q_cv. unfold qmul, qconj, qscale, qnorm2; cbn. f_equal; ring. }
  rewrite E1, E2. f_equal; [f_equal|].
  - destruct p_vc. unfold v3sub, v3zero; cbn. f_equal; ring.
  - unfold yaw_residual, s, pose_init; cbn [b_qwv]. unfold qone; cbn [qw qx qy qz]. field.
Qed.

Lemma pose_pressure_pose : forall scale p_vc q_vc p_ic q_ic0 z,
  fst (pose_pressure_init true scale p_vc q_vc p_ic q_ic0 z) = pose_init true scale p_vc q_vc p_ic q_ic0.
Proof.
  intros. unfold pose_pressure_init, pose_init. cbn [fst]. f_equal.
  rewrite v3add_0_l. reflexivity.
Qed.
Lemma pose_pressure_bias : forall scale p_vc q_vc p_ic q_ic0 z, scale <> 0 ->
  let '(s, b) := pose_pressure_init true scale p_vc q_vc p_ic q_ic0 z in
  pressure_residual z b (b_p s) = v3z (m3vec (qrot (b_q s)) p_ic).
Proof.
  intros scale p_vc q_vc p_ic q_ic0 z Hs. unfold pose_pressure_init, pressure_residual. cbn [b_p b_q].
  rewrite qconj_one, qrot_one, m3eye_vec. destruct (m3vec _ _). unfold v3sub, v3scale; cbn. field. exact Hs.
Qed.

Lemma yaw_quat_unit : forall y, qnorm2 (yaw_quat y) = 1.
Proof.
  intros y. unfold yaw_quat. apply qnormalize_unit. unfold qnorm2; cbn [qw qx qy qz].
  pose proof (sin2_cos2 (y / 180 * PI / 2)). unfold Rsqr in *. lra.
Qed.
Lemma qrot_conj_vec : forall q x, qnorm2 q = 1 -> m3vec (qrot q) (m3vec (qrot (qconj q)) x) = x.
Proof.
  intros q x Hq. rewrite <- m3mul_vec, <- qrot_tr_conj.
  destruct q as [a b c d], x as [u v w]. unfold qnorm2 in Hq; cbn [qw qx qy qz] in Hq.
  unfold m3vec, m3mul, m3tr, qrot, v3dot; cbn [qw qx qy qz r1 r2 r3 v3x v3y v3z].
  f_equal; nsatz.
Qed.
Lemma position_pose_init_ok : forall scale yaw p_pos p_vc q_vc p_ic q_ic0 p_ip,
  scale <> 0 -> qnorm2 q_vc = 1 -> qnorm2 q_ic0 <> 0 ->
  let '(s, a) := position_pose_init scale yaw p_pos p_vc q_vc p_ic q_ic0 p_ip in
  fst (pose_residual p_vc q_vc s) = (v3zero, v3zero) /\ position_residual p_pos a = v3zero.
Proof.
  intros scale yaw p_pos p_vc q_vc p_ic q_ic0 p_ip Hs Hv Hq.
  assert (Hic : qnorm2 (qnormalize q_ic0) = 1) by (apply qnormalize_unit; exact Hq).
  pose proof (yaw_quat_unit yaw) as Hy.
  unfold position_pose_init. revert Hic Hy. generalize (qnormalize q_ic0) (yaw_quat yaw). intros c q Hc Hy.
  split.
  - unfold pose_residual. cbn [fst]. f_equal.
    + rewrite pose_position_eq. unfold pose_point; cbn [b_p b_q b_L b_qwv b_pwv b_pic].
      set (w := qconj (qmul (qmul q c) (qconj q_vc))).
      assert (Hw : qnorm2 w = 1) by (unfold w; rewrite qnorm2_conj, !qnorm2_mul, qnorm2_conj, Hy, Hc, Hv; ring).
      assert (E : v3add (v3add (v3neg (v3sub (v3sub p_pos (m3vec (qrot q) p_ip))
          (v3sub (v3scale (/ scale) (m3vec (qrot (qconj w)) p_vc)) (m3vec (qrot q) p_ic))))
          (v3sub p_pos (m3vec (qrot q) p_ip))) (m3vec (qrot q) p_ic) = v3scale (/ scale) (m3vec (qrot (qconj w)) p_vc)).
      { unfold v3add, v3sub, v3neg. generalize (m3vec (qrot q) p_ic) (m3vec (qrot q) p_ip) (v3scale (/ scale) (m3vec (qrot (qconj w)) p_vc)).
        intros [] [] []; cbn. f_equal; ring. }
      rewrite E, m3vec_scale, qrot_conj_vec by exact Hw. rewrite v3zero_unscale by exact Hs.
      destruct p_vc. unfold v3sub, v3zero; cbn. f_equal; ring.
    + unfold pose_attitude; cbn [b_q b_qwv b_qic].
      assert (E : qmul (qmul (qconj (qmul (qmul q c) (qconj q_vc))) q) c = q_vc).
      { rewrite (qconj_mul (qmul q c)), (qconj_mul q), qconj_conj.
        rewrite !qmul_assoc. rewrite <- (qmul_assoc (qconj q)), qmul_conj_l, Hy.
        change (Quat 1 0 0 0) with qone. rewrite qmul_1_l, qmul_conj_l, Hc. apply qmul_1_r. }
      rewrite E.
      rewrite qmul_conj_l. apply small_angle_real.
  - unfold position_residual; cbn [a_p a_q a_pip]. rewrite qrot_conj_tr.
    destruct p_pos, (m3vec _ _). unfold v3sub, v3add, v3zero; cbn. f_equal; ring.
Qed.

(** *** Spherical *)

Lemma sensed_init : forall yaw p_vc p_ip, sensed_point (position_init yaw p_vc p_ip) = p_vc.
Proof.
  intros. rewrite sensed_eq. unfold position_init; cbn [a_p a_q a_pip]. destruct p_vc, (m3vec _ _).
  unfold v3add, v3sub; cbn. f_equal; ring.
Qed.
Lemma radius_spherical : forall d th ph, 0 <= d -> radius (spherical_point d th ph) = d.
Proof.
  intros d th ph Hd. unfold radius, spherical_point; cbn [v3x v3y v3z].
  replace (_ + _ + _) with (d * d * (Rsqr (sin th) * (Rsqr (sin ph) + Rsqr (cos ph)) + Rsqr (cos th))) by (unfold Rsqr; ring).
  rewrite sin2_cos2, Rmult_1_r, sin2_cos2, Rmult_1_r. apply sqrt_square. exact Hd.
Qed.
Lemma theta_spherical : forall d th ph, 0 < d -> 0 <= th <= PI -> theta_of (spherical_point d th ph) = Some th.
Proof.
  intros d th ph Hd Ht. unfold theta_of. rewrite radius_spherical by lra.
  destruct (Req_EM_T d 0); [lra|]. cbn [spherical_point v3z].
  replace (d * cos th / d) with (cos th) by (field; lra). f_equal. apply acos_cos. exact Ht.
Qed.
Lemma phi_spherical : forall d th ph, 0 < d -> 0 < th < PI -> - PI < ph < PI ->
  phi_of (spherical_point d th ph) = Some ph.
Proof.
  intros d th ph Hd Ht Hp. pose proof (sin_gt_0 th (proj1 Ht) (proj2 Ht)) as Hs. unfold spherical_point.
  pose proof PI_RGT_0 as HPI.
  assert (Hk : 0 < d * sin th) by (apply Rmult_lt_0_compat; assumption).
  destruct (Rtotal_order ph 0) as [H|[H|H]].
  - assert (Hsp : sin ph < 0) by (apply sin_lt_0_var; lra).
    rewrite phi_lower by nra. f_equal.
    replace (d * sin th * cos ph / (d * sin th * sin ph)) with (tan (- (PI / 2) - ph)).
    + rewrite atan_tan; [ring|lra].
    + unfold tan. replace (- (PI / 2) - ph) with (- (PI / 2 + ph)) by ring.
      rewrite sin_neg, cos_neg, sin_plus, cos_plus, sin_PI2, cos_PI2. field. repeat split; lra.
  - subst ph. rewrite phi_right by (rewrite cos_0; lra). f_equal. rewrite sin_0, cos_0.
    replace (d * sin th * 0 / (d * sin th * 1)) with 0 by (field; repeat split; lra). apply atan_0.
  - assert (Hsp : 0 < sin ph) by (apply sin_gt_0; lra).
    rewrite phi_upper by nra. f_equal.
    replace (d * sin th * cos ph / (d * sin th * sin ph)) with (tan (PI / 2 - ph)).
    + rewrite atan_tan; [ring|lra].
    + unfold tan. rewrite sin_minus, cos_minus, sin_PI2, cos_PI2. field. repeat split; lra.
Qed.

(** ** No correction, no change *)

Lemma small_quat_zero : small_quat v3zero = qone.
Proof.
  unfold small_quat, v3norm2, v3dot, v3zero; cbn [v3x v3y v3z].
  destruct (Rlt_dec _ 1) as [H|H]; [|exfalso; apply H; lra].
  replace (1 - _) with 1 by field. rewrite sqrt_1. unfold qone. f_equal; ring.
Qed.
Lemma correct_zero : forall s data s' k i,
  compiles (types s) -> named (types s) -> quat_plain (types s) -> Forall shape_ok s ->
  Z.of_nat (length data) = count_states corr_len (types s) ->
  nth_error s k = Some i -> Z.odd (vopt (itype i)) = false ->
  (forall q, ival i = VQuat q -> qnorm2 q = 1) ->
  (forall j, (start_index corr_len (types s) (itype i) <= Z.of_nat j <
              start_index corr_len (types s) (itype i) + corr_len (Some (itype i)))%Z -> List.nth j data 0 = 0) ->
  correct data s = Ok s' -> nth_error s' k = Some i.
Proof.
  intros s data s' k i Hc Hn Hq Hs Hl Hk Ho Hu Hz E.
  destruct (correct_spec s data Hc Hn Hq Hs Hl) as (s1 & A1 & A2 & A3).
  rewrite E in A1. injection A1 as <-. destruct (A3 k i Hk) as (i' & E' & C1 & C2 & C3 & C4). rewrite E'. f_equal.
  rewrite (start_index_at corr_len _ k _ Hc Hn (types_nth s k i Hk)) in Hz.
  pose proof (sum_nonneg corr_len (firstn k (types s)) pos_corr) as Hnn.
  assert (Hsh : shape_ok i) by (eapply Forall_forall; [exact Hs|eapply nth_error_In, Hk]).
  unfold shape_ok in Hsh. rewrite Ho in C4. cbn [corr_len] in Hz.
  destruct i' as [t v q r]. cbn [itype iQ ireset ival] in *. subst t q r.
  destruct i as [t v0 q r]. cbn [itype iQ ireset ival] in *. f_equal.
  destruct (vkd t) as [n|] eqn:Ek; destruct v0 as [x|q0]; try contradiction; destruct v as [x'|q']; try contradiction; f_equal.
  - destruct C4 as [CL CN].
    apply nth_ext with (d := 0%R) (d' := 0%R); [exact CL|]. intros j Hj. rewrite CN by lia.
    rewrite Hz; [lra|]. lia.
  - rewrite C4, !Hz by lia. fold v3zero. rewrite small_quat_zero, qmul_1_r. apply qnormalize_id. apply Hu. reflexivity.
Qed.

(** ** Columns of fixed variables *)

Lemma m3at_zero : forall i j, m3at m3zero i j = 0.
Proof. intros [|[|i]] [|[|j]]; reflexivity. Qed.
Lemma v3at_zero : forall i, v3at v3zero i = 0.
Proof. intros [|[|i]]; reflexivity. Qed.
Lemma put_zero : forall r0 c0 nr nc B H r c, (forall i j, B i j = 0) -> H r c = 0 -> put r0 c0 nr nc B H r c = 0.
Proof. intros r0 c0 nr nc B H r c HB HH. unfold put. destruct (_ && _)%bool; auto. Qed.

Lemma pose_H_fixed : forall n l f s r c, lpose_ok n l ->
  (f_L f = true /\ part (k_L l) 1 c) \/ (f_pic f = true /\ part (k_pic l) 3 c) \/ (f_qic f = true /\ part (k_qic l) 3 c) \/
  (f_qwv f = true /\ part (k_qwv l) 3 c) \/ (f_pwv f = true /\ part (k_pwv l) 3 c) ->
  pose_H l f s r c = 0.
Proof.
  intros n l f s r c (H1 & H2 & H3 & H4 & H5 & H6 & H7) Hf. unfold pose_H. cbv zeta. unfold put33, put31, part in *.
  destruct Hf as [[E Hc]|[[E Hc]|[[E Hc]|[[E Hc]|[E Hc]]]]]; rewrite E;
    repeat first [ rewrite put_out by lia | apply put_zero; [intros; first [apply m3at_zero|apply v3at_zero]|] ]; reflexivity.
Qed.
Lemma position_H_fixed : forall n l s r c, pos_ordered n (l_p l) (l_q l) (l_pip l) ->
  part (l_pip l) 3 c -> position_H l true s r c = 0.
Proof.
  intros n l s r c (H1 & H2 & H3) Hc. unfold position_H. cbv zeta. unfold put33, part in *.
  repeat first [ rewrite put_out by lia | apply put_zero; [intros; apply m3at_zero|] ]. reflexivity.
Qed.

(** ** A spherical example *)
Lemma sph_entry : forall j, (j < 9)%nat ->
  distance_H (PosLayout 0 3 6) (PosState (V3 1 0 0) qone v3zero) 0%nat j =
  if ((j =? 0)%nat || (j =? 6)%nat)%bool then 1 else 0.
Proof.
  assert (e1 : sqrt (1 * 1 + 0 * 0 + 0 * 0) = 1).
  { replace (1 * 1 + 0 * 0 + 0 * 0) with 1 by ring. apply sqrt_1. }
  intros j Hj.
  do 9 (destruct j as [|j]; [cbn; rewrite ?e1; field|]). lia.
Qed.

(** ** Wrapped azimuth residuals *)
Lemma period_z : forall k x, cos (x + 2 * IZR k * PI) = cos x /\ sin (x + 2 * IZR k * PI) = sin x.
Proof.
  intros k x. destruct (Z_le_gt_dec 0 k) as [H|H].
  - rewrite <- (Z2Nat.id k H), <- INR_IZR_INZ. split; [apply cos_period|apply sin_period].
  - rewrite <- (cos_period (x + 2 * IZR k * PI) (Z.to_nat (- k))), <- (sin_period (x + 2 * IZR k * PI) (Z.to_nat (- k))).
    rewrite INR_IZR_INZ, Z2Nat.id, opp_IZR by lia.
    replace (x + 2 * IZR k * PI + 2 * - IZR k * PI) with x by ring. auto.
Qed.
Lemma representative : forall f, exists k, - PI <= f + 2 * IZR k * PI < PI.
Proof.
  intros f. pose proof PI_RGT_0 as HP. exists (- Int_part ((f + PI) / (2 * PI)))%Z.
  destruct (base_Int_part ((f + PI) / (2 * PI))) as [A B]. rewrite opp_IZR.
  set (n := IZR (Int_part _)) in *. clearbody n.
  assert (E : (f + PI) / (2 * PI) * (2 * PI) = f + PI) by (field; lra).
  set (q := (f + PI) / (2 * PI)) in *. clearbody q.
  assert (n * (2 * PI) <= q * (2 * PI)) by (apply Rmult_le_compat_r; lra).
  assert ((q - n) * (2 * PI) < 1 * (2 * PI)) by (apply Rmult_lt_compat_r; lra). lra.
Qed.
Lemma phi_of_azimuth : forall z rho f, 0 < rho -> v3x z = rho * cos f -> v3y z = rho * sin f ->
  (v3y z <> 0 \/ 0 < v3x z) -> exists g, phi_of z = Some g /\ - PI < g < PI /\ cos g = cos f /\ sin g = sin f.
Proof.
  intros z rho f Hr Hx Hy Hc. pose proof PI_RGT_0 as HP. destruct (representative f) as [k Hk].
  destruct (period_z k f) as [C S]. set (g := f + 2 * IZR k * PI) in *. exists g.
  assert (Hg : - PI < g).
  { destruct Hk as [[Hk|Hk] _]; [exact Hk|exfalso].
    rewrite <- Hk, cos_neg, cos_PI in C. rewrite <- Hk, sin_neg, sin_PI in S.
    rewrite Hy, Hx, <- C, <- S in Hc. destruct Hc; [apply H; ring|lra]. }
  repeat split; try tauto; try lra.
  rewrite <- (phi_spherical rho (PI / 2) g); [|lra..].
  unfold phi_of, spherical_point. cbn [v3x v3y v3z]. rewrite Hx, Hy, sin_PI2, C, S.
  replace (rho * 1 * cos f) with (rho * cos f) by ring. replace (rho * 1 * sin f) with (rho * sin f) by ring. reflexivity.
Qed.
Lemma wrap_shortest : forall r, - (3 * PI) <= r <= 3 * PI -> - PI <= wrap_residual r <= PI /\
  cos (wrap_residual r) = cos r /\ sin (wrap_residual r) = sin r.
Proof.
  intros r Hr. pose proof PI_RGT_0 as HP. unfold wrap_residual.
  destruct (Rlt_dec r (- PI)).
  - destruct (Rlt_dec PI (r + 2 * PI)); [lra|]. split; [lra|].
    replace (r + 2 * PI) with (r + 2 * IZR 1 * PI) by ring. apply period_z.
  - destruct (Rlt_dec PI r); split; auto; try lra.
    replace (r - 2 * PI) with (r + 2 * IZR (-1) * PI) by ring. apply period_z.
Qed.

Lemma wrap_local : forall k v, Rabs (k - v) <> PI -> exists e c, 0 < e /\
  forall x, Rabs (x - v) < e -> wrap_residual (k - x) = c - x.
Proof.
  intros k v H. pose proof PI_RGT_0 as HP.
  destruct (Rtotal_order (k - v) (- PI)) as [L|[E|L]].
  - exists (- PI - (k - v)), (k + 2 * PI). split; [lra|]. intros x Hx. apply Rabs_def2 in Hx.
    unfold wrap_residual. destruct (Rlt_dec (k - x) (- PI)); [|lra].
    destruct (Rlt_dec PI (k - x + 2 * PI)); lra.
  - exfalso. apply H. rewrite E, Rabs_Ropp, Rabs_pos_eq; lra.
  - destruct (Rtotal_order (k - v) PI) as [L2|[E|L2]].
    + exists (Rmin (PI - (k - v)) (k - v + PI)), k. split; [apply Rmin_glb_lt; lra|]. intros x Hx.
      assert (A1 := Rlt_le_trans _ _ _ Hx (Rmin_l _ _)). assert (A2 := Rlt_le_trans _ _ _ Hx (Rmin_r _ _)).
      apply Rabs_def2 in A1. apply Rabs_def2 in A2. apply wrap_id. lra.
    + exfalso. apply H. rewrite E, Rabs_pos_eq; lra.
    + exists (k - v - PI), (k - 2 * PI). split; [lra|]. intros x Hx. apply Rabs_def2 in Hx.
      unfold wrap_residual. destruct (Rlt_dec (k - x) (- PI)); [lra|].
      destruct (Rlt_dec PI (k - x)); lra.
Qed.
