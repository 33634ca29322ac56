(** Lemmas for the handler and timing properties. *)

From Coq Require Import Reals ZArith List Bool Lia Lra Permutation.
From Verif Require Import Outcome Handlers HandlersSpec.
Import ListNotations.
Open Scope Z_scope.

(** ** Watchdog *)

Lemma to_int_small z : 0 <= z <= int_max -> to_int z = z.
Proof.
  intros h; unfold to_int. unfold int_max in *.
  rewrite Z.mod_small by lia. destruct (Z.leb_spec z 2147483647); lia.
Qed.

Lemma to_int_big z : int_max < z < 2 ^ 32 -> to_int z = z - 2 ^ 32.
Proof.
  intros h; unfold to_int. unfold int_max in *.
  change (2 ^ 32) with 4294967296 in *.
  rewrite Z.mod_small by lia. destruct (Z.leb_spec z 2147483647); lia.
Qed.

Lemma watch_step p s : 0 < p < 2 ^ 32 -> p <> int_max -> 0 <= s < 2 ^ 32 ->
  watch_dog (to_int p) s = Ok (negb (s =? (p + 1) mod 2 ^ 32), to_int s).
Proof.
  intros hp hm hs; unfold watch_dog, inc.
  change (2 ^ 32) with 4294967296 in *.
  assert (hp' : to_int p = p /\ p < int_max \/ to_int p = p - 4294967296 /\ int_max < p).
  { destruct (Z_le_gt_dec p int_max); [left | right].
    - rewrite to_int_small by lia; lia.
    - rewrite to_int_big; change (2 ^ 32) with 4294967296; lia. }
  assert (hs' : to_int s = s /\ s <= int_max \/ to_int s = s - 4294967296 /\ int_max < s).
  { destruct (Z_le_gt_dec s int_max); [left | right].
    - rewrite to_int_small by lia; lia.
    - rewrite to_int_big; change (2 ^ 32) with 4294967296; lia. }
  unfold int_max in *.
  destruct (Z.eqb_spec (to_int p) 2147483647); [lia|]. simpl.
  assert (e0 : (to_int p =? 0) = false) by (apply Z.eqb_neq; lia).
  rewrite e0, andb_true_r. do 3 f_equal.
  destruct (Z.eq_dec p 4294967295) as [->|hne].
  - change ((4294967295 + 1) mod 4294967296) with 0.
    destruct (Z.eqb_spec (to_int s) (to_int 4294967295 + 1));
      destruct (Z.eqb_spec s 0); try reflexivity; lia.
  - rewrite Z.mod_small by lia.
    destruct (Z.eqb_spec (to_int s) (to_int p + 1)); destruct (Z.eqb_spec s (p + 1));
      try reflexivity; lia.
Qed.

Lemma watch_run_ok seqs : forall p, 0 < p < 2 ^ 32 -> p <> int_max ->
  (forall s, In s seqs -> 0 < s < 2 ^ 32 /\ s <> int_max) ->
  watch_run (to_int p) seqs = Ok (drops_after p seqs).
Proof.
  induction seqs as [|s r IH]; intros p hp hm hs; [reflexivity|].
  cbn [watch_run drops_after].
  destruct (hs s (or_introl eq_refl)) as [h1 h2].
  rewrite watch_step by (auto; lia). cbn [bind].
  rewrite IH; auto. intros; apply hs; right; assumption.
Qed.

(** ** Handlers *)

Lemma add_handlers_ok hs : forall m,
  0 <= next_id m -> next_id m + Z.of_nat (length hs) <= int_max ->
  NoDup hs -> (forall h, In h hs -> ~ In h (handlers m)) ->
  exists m', add_handlers hs m = Ok m' /\
    handlers m' = handlers m ++ hs /\
    next_id m' = next_id m + Z.of_nat (length hs) /\
    (forall h, ~ In h hs -> hid m' h = hid m h) /\
    (forall i h, nth_error hs i = Some h -> hid m' h = next_id m + Z.of_nat i).
Proof.
  induction hs as [|h r IH]; intros m h0 hl hn hd.
  - exists m; rewrite app_nil_r. cbn [length add_handlers]. repeat split; auto; try lia.
    intros [|i] x hx; discriminate.
  - cbn [add_handlers length] in *. unfold add_handler, inc at 1.
    destruct (Z.eqb_spec (next_id m) int_max); [lia|]. cbn [bind].
    inversion_clear hn as [|? ? hnin hnd].
    edestruct (IH (Manager (next_id m + 1) (handlers m ++ [h])
      (fun x => if Nat.eqb x h then next_id m else hid m x))) as (m' & e & e1 & e2 & e3 & e4);
      cbn [next_id handlers hid] in *; try lia; auto.
    { intros x hx hin. apply in_app_or in hin as [hin|[<-|[]]]; [|contradiction].
      apply (hd x); [right; assumption|assumption]. }
    exists m'; rewrite e; repeat split; auto.
    + rewrite e1, <- app_assoc; reflexivity.
    + lia.
    + intros x hx. rewrite e3 by (intro; apply hx; right; assumption).
      destruct (Nat.eqb_spec x h); [|reflexivity]. exfalso; apply hx; left; auto.
    + intros [|i] x hx; cbn in hx.
      * injection hx as <-. rewrite e3 by assumption. rewrite Nat.eqb_refl. lia.
      * rewrite (e4 i x hx). lia.
Qed.

(** ** Throttle *)

Lemma throttle_spaced min_dt l : forall prev,
  spaced (min_dt - epsilon) prev (throttle_run min_dt prev l).
Proof.
  induction l as [|t r IH]; intros prev; cbn; [exact I|].
  unfold throttle. destruct (Z.leb_spec (t - prev) (min_dt - epsilon)); [apply IH|].
  cbn; split; [lia|apply IH].
Qed.

Lemma spaced_increasing gap l : forall prev, 0 <= gap -> spaced gap prev l -> increasing l.
Proof.
  induction l as [|t r IH]; intros prev hg hs; [exact I|].
  destruct hs as [h1 h2]. destruct r as [|t' r]; [exact I|].
  split; [destruct h2; lia|]. apply (IH t); auto.
Qed.

Lemma throttle_app min_dt a : forall prev t,
  throttle_run min_dt prev (a ++ [t]) =
  throttle_run min_dt prev a ++
  (if last (throttle_run min_dt prev a) prev + (min_dt - epsilon) <? t then [t] else []).
Proof.
  induction a as [|x r IH]; intros prev t; cbn [app throttle_run].
  - unfold throttle. cbn [last].
    destruct (Z.leb_spec (t - prev) (min_dt - epsilon));
      destruct (Z.ltb_spec (prev + (min_dt - epsilon)) t); try lia; reflexivity.
  - unfold throttle. destruct (Z.leb_spec (x - prev) (min_dt - epsilon)); [apply IH|].
    rewrite IH. cbn [app]. f_equal. f_equal.
    assert (e : last (x :: throttle_run min_dt x r) prev = last (throttle_run min_dt x r) x).
    { set (l := throttle_run min_dt x r). clearbody l.
      destruct l as [|y l]; [reflexivity|].
      change (last (y :: l) prev = last (y :: l) x).
      clear. revert y; induction l as [|z l IH]; intros y; [reflexivity|].
      change (last (z :: l) prev = last (z :: l) x). apply IH. }
    rewrite e; reflexivity.
Qed.

(** ** Lists *)

Lemma sumR_total l : sumR l = total l.
Proof.
  unfold sumR. assert (h : forall l a, fold_left Rplus l a = (a + total l)%R).
  { clear; induction l as [|x r IH]; intros a; cbn; [lra|]. rewrite IH. lra. }
  rewrite h; lra.
Qed.

Lemma total_app a b : total (a ++ b) = (total a + total b)%R.
Proof. induction a as [|x r IH]; cbn; [lra|]. rewrite IH; lra. Qed.

Lemma total_perm a b : Permutation a b -> total a = total b.
Proof. induction 1; cbn; lra. Qed.

Lemma lastn_all {A} n (l : list A) : (length l <= n)%nat -> lastn n l = l.
Proof. intros h; unfold lastn. replace (length l - n)%nat with 0%nat by lia. reflexivity. Qed.

Lemma lastn_length {A} n (l : list A) : length (lastn n l) = Nat.min n (length l).
Proof. unfold lastn. rewrite skipn_length. lia. Qed.

(** Appending one element shifts a full window. *)
Lemma lastn_snoc {A} n (l : list A) x : (0 < n <= length l)%nat ->
  lastn n (l ++ [x]) = skipn 1 (lastn n l) ++ [x].
Proof.
  intros h; unfold lastn. rewrite app_length; cbn [length].
  replace (length l + 1 - n)%nat with (1 + (length l - n))%nat by lia.
  rewrite skipn_app. replace (1 + (length l - n) - length l)%nat with 0%nat by lia.
  cbn [skipn]. f_equal. generalize (length l - n)%nat; intros k.
  revert k; induction l as [|y l IH]; intros k.
  - destruct k; reflexivity.
  - destruct k; [reflexivity|]. change (skipn (S k) l = match skipn k l with [] => [] | _ :: z => z end).
    clear. revert l; induction k; intros l; [reflexivity|].
    destruct l; [reflexivity|]. apply IHk.
Qed.

(** ** Barometer *)

Definition processed (msgs : list (Z * R)) : list R :=
  map snd (filter (fun m => fst m mod 10 =? 0) msgs).

Lemma lastn_app_big {A} n (a b : list A) : (n <= length b)%nat -> lastn n (a ++ b) = lastn n b.
Proof.
  intros h; unfold lastn. rewrite app_length, skipn_app.
  rewrite skipn_all2 by lia. cbn [app]. f_equal; lia.
Qed.

Lemma pressure_run_ok msgs : forall p hist, length hist = 10%nat ->
  heightbuff p = lastn 10 hist ->
  exists p', pressure_run false p msgs = Ok (processed msgs, p') /\
    heightbuff p' = lastn 10 (hist ++ processed msgs) /\
    (processed msgs <> [] -> z_average p' = (total (heightbuff p') / 10)%R).
Proof.
  assert (gen : forall msgs p hist, (10 <= length hist)%nat -> heightbuff p = lastn 10 hist ->
    exists p', pressure_run false p msgs = Ok (processed msgs, p') /\
      heightbuff p' = lastn 10 (hist ++ processed msgs) /\
      ((processed msgs = [] /\ p' = p) \/
       z_average p' = (total (heightbuff p') / 10)%R)).
  { clear. induction msgs as [|[s z] r IH]; intros p hist hl hb.
    - exists p; cbn. rewrite app_nil_r. auto.
    - unfold processed; cbn [pressure_run filter fst]. unfold pressure_step.
      destruct (s mod 10 =? 0) eqn:e; cbn [negb bind].
      + edestruct (IH (Pressure (skipn 1 (heightbuff p) ++ [z])
          (sumR (skipn 1 (heightbuff p) ++ [z]) / 10)%R) (hist ++ [z])) as (p' & e1 & e2 & e3).
        * rewrite app_length; cbn; lia.
        * cbn [heightbuff]. rewrite lastn_snoc by lia. rewrite hb; reflexivity.
        * exists p'. rewrite e1. cbn [bind map snd]. split; [reflexivity|].
          fold (processed r). split.
          { rewrite e2, <- app_assoc; reflexivity. }
          right. destruct e3 as [[_ ->]|e3]; [|exact e3].
          cbn [z_average heightbuff]. rewrite sumR_total; reflexivity.
      + fold (processed r). edestruct (IH p hist) as (p' & e1 & e2 & e3); auto.
        exists p'. rewrite e1. auto. }
  intros p hist hl hb. destruct (gen msgs p hist) as (p' & e1 & e2 & e3); auto; [lia|].
  exists p'; repeat split; auto. intros hne; destruct e3 as [[]|]; [contradiction|assumption].
Qed.

(** ** Accumulator *)

Lemma total_nonneg l : (forall x, In x l -> (0 <= x)%R) -> (0 <= total l)%R.
Proof.
  induction l as [|x r IH]; intros h; cbn; [lra|].
  assert (h1 := h x (or_introl eq_refl)).
  assert (h2 : (0 <= total r)%R) by (apply IH; intros; apply h; right; assumption).
  lra.
Qed.

Lemma variance_nonneg l : (0 <= variance l)%R.
Proof.
  unfold variance. set (m := mean l). unfold mean. rewrite map_length.
  destruct l as [|x r].
  - cbn. unfold Rdiv. rewrite Rmult_0_l. lra.
  - apply Rmult_le_pos.
    + apply total_nonneg. intros y hy. apply in_map_iff in hy as (z & <- & _).
      apply Rle_0_sqr.
    + left. apply Rinv_0_lt_compat. apply lt_0_INR. cbn; lia.
Qed.

Section Acc.
Variables (N : nat) (big tiny : R).
Hypothesis hN : (0 < N)%nat.
Notation new := (acc_new N big tiny).

Definition fmin (xs : list R) : R := fold_left (fun m x => if Rlt_dec x m then x else m) xs big.
Definition fmax (xs : list R) : R := fold_left (fun m x => if Rlt_dec m x then x else m) xs tiny.

Record acc_inv (xs : list R) (a : acc) : Prop := {
  inv_w : window_samples a = Z.of_nat (length xs);
  inv_t : totalsamples a = Z.of_nat (length xs);
  inv_ws : window_sum a = total (lastn N xs);
  inv_s : asum a = total xs;
  inv_mn : amin a = fmin xs;
  inv_mx : amax a = fmax xs;
  inv_smp : (length xs < N)%nat /\ samples a = map Some xs ++ repeat None (N - length xs) \/
    (N <= length xs)%nat /\ exists A B, lastn N xs = A ++ B /\ samples a = map Some (B ++ A) /\
      length B = (length xs mod N)%nat /\ (length A + length B = N)%nat
}.

Lemma acc_inv_new : acc_inv [] new.
Proof.
  constructor; try reflexivity. left; split; [cbn; lia|].
  cbn [acc_new samples map app length]. rewrite Nat.sub_0_r. reflexivity.
Qed.

Lemma upd_app {A} (l r : list A) y x : upd (l ++ y :: r) (length l) x = l ++ x :: r.
Proof. induction l as [|z l IH]; cbn; [reflexivity|]. rewrite IH; reflexivity. Qed.

Lemma nth_error_mid {A} (l r : list A) y : nth_error (l ++ y :: r) (length l) = Some y.
Proof. induction l; cbn; auto. Qed.

Lemma acc_inv_step xs a x : acc_inv xs a -> Z.of_nat (length xs) < int_max ->
  exists a', acc_add N a x = Ok a' /\ acc_inv (xs ++ [x]) a'.
Proof.
  intros [iw it iws is_ imn imx ismp] hlt. unfold acc_add, inc. rewrite iw, it.
  destruct (Z.eqb_spec (Z.of_nat (length xs)) int_max); [lia|]. cbn [bind].
  assert (hmn : (if Rlt_dec x (amin a) then x else amin a) = fmin (xs ++ [x])).
  { unfold fmin. rewrite fold_left_app. cbn. fold (fmin xs). rewrite imn; reflexivity. }
  assert (hmx : (if Rlt_dec (amax a) x then x else amax a) = fmax (xs ++ [x])).
  { unfold fmax. rewrite fold_left_app. cbn. fold (fmax xs). rewrite imx; reflexivity. }
  rewrite hmn, hmx. clear hmn hmx imn imx.
  assert (hlen : Z.of_nat (length (xs ++ [x])) = Z.of_nat (length xs) + 1).
  { rewrite app_length; cbn; lia. }
  destruct (Z.ltb_spec (Z.of_nat (length xs)) (Z.of_nat N)) as [hl|hl].
  - destruct ismp as [[h1 h2]|[h1 _]]; [|lia].
    eexists; split; [reflexivity|]. constructor; cbn [window_samples totalsamples window_sum asum amin amax samples].
    1, 2: lia.
    + rewrite iws, !lastn_all, total_app by (rewrite ?app_length; cbn; lia). cbn; lra.
    + rewrite is_, total_app; cbn; lra.
    + reflexivity.
    + reflexivity.
    + rewrite h2, Nat2Z.id.
      replace (N - length xs)%nat with (S (N - S (length xs))) by lia. cbn [repeat].
      replace (upd (map Some xs ++ None :: repeat None (N - S (length xs))) (length xs) (Some x))
        with (map Some xs ++ Some x :: repeat None (N - S (length xs)))
        by (symmetry; rewrite <- (map_length Some xs) at 2; apply upd_app).
      destruct (Nat.eq_dec (S (length xs)) N) as [e|e].
      * right. split; [rewrite app_length; cbn; lia|].
        exists (xs ++ [x]), []. rewrite app_nil_r, lastn_all by (rewrite app_length; cbn; lia).
        rewrite app_length; cbn [length].
        replace (length xs + 1)%nat with N by lia. rewrite Nat.mod_same by lia.
        replace (N - S (length xs))%nat with 0%nat by lia. cbn. rewrite map_app.
        repeat split; lia.
      * left. rewrite app_length; cbn [length]. split; [lia|].
        rewrite map_app, <- app_assoc. cbn.
        replace (N - S (length xs))%nat with (N - (length xs + 1))%nat by lia. reflexivity.
  - destruct ismp as [[h1 _]|(h1 & A & B & e1 & e2 & e3 & e4)]; [lia|].
    assert (hB : (length B < N)%nat) by (rewrite e3; apply Nat.mod_upper_bound; lia).
    destruct A as [|a0 A]; [cbn in e4; lia|].
    assert (hi : Z.to_nat (Z.of_nat (length xs) mod Z.of_nat N) = length B).
    { rewrite <- mod_Zmod by lia. rewrite Nat2Z.id. auto. }
    rewrite hi, e2. rewrite map_app. cbn [map].
    replace (nth_error (map Some B ++ Some a0 :: map Some A) (length B))
      with (Some (Some a0)) by (symmetry; rewrite <- (map_length Some B); apply nth_error_mid).
    replace (upd (map Some B ++ Some a0 :: map Some A) (length B) (Some x))
      with (map Some B ++ Some x :: map Some A)
      by (symmetry; rewrite <- (map_length Some B); apply upd_app).
    assert (eL : lastn N (xs ++ [x]) = A ++ B ++ [x]).
    { rewrite lastn_snoc by lia. rewrite e1. cbn. rewrite <- app_assoc. reflexivity. }
    eexists; split; [reflexivity|].
    constructor; cbn [window_samples totalsamples window_sum asum amin amax samples].
    1, 2: lia.
    + rewrite iws, eL, e1, !total_app. cbn. lra.
    + rewrite is_, total_app; cbn; lra.
    + reflexivity.
    + reflexivity.
    + right. rewrite app_length at 1. cbn [length]. split; [lia|].
      assert (hm : (length xs = N * (length xs / N) + length B)%nat)
        by (rewrite e3; apply Nat.div_mod; lia).
      cbn [length] in e4. destruct A as [|a1 A].
      * exists (B ++ [x]), []. rewrite eL, app_nil_r. cbn [app]. rewrite map_app. cbn.
        rewrite !app_length; cbn [length] in *. repeat split; try lia.
        symmetry. replace (length xs + 1)%nat with ((length xs / N + 1) * N)%nat by nia.
        apply Nat.mod_mul. lia.
      * exists (a1 :: A), (B ++ [x]). rewrite eL. rewrite !app_length; cbn [length] in *.
        split; [reflexivity|]. split; [|split; [|lia]].
        -- rewrite !map_app. cbn. rewrite <- app_assoc. reflexivity.
        -- apply (Nat.mod_unique _ _ (length xs / N)); lia.
Qed.

Lemma acc_run_ok ys : forall xs a, acc_inv xs a ->
  Z.of_nat (length xs + length ys) <= int_max ->
  exists a', acc_run N a ys = Ok a' /\ acc_inv (xs ++ ys) a'.
Proof.
  induction ys as [|y r IH]; intros xs a hi hl.
  - exists a. rewrite app_nil_r. auto.
  - cbn [acc_run length] in *.
    destruct (acc_inv_step xs a y hi) as (a1 & -> & h1); [lia|]. cbn [bind].
    destruct (IH (xs ++ [y]) a1 h1) as (a2 & e2 & h2); [rewrite app_length; cbn; lia|].
    exists a2. rewrite e2, <- app_assoc in *. auto.
Qed.

Lemma sum_sq_some m l : sum_sq m (map Some l) = Some (total (map (fun x => ((x - m) * (x - m))%R) l)).
Proof. induction l as [|x r IH]; cbn; [reflexivity|]. rewrite IH; reflexivity. Qed.

Lemma window_perm xs a : acc_inv xs a ->
  exists l, firstn (Z.to_nat (window N a)) (samples a) = map Some l /\ Permutation l (lastn N xs).
Proof.
  intros i. unfold window. rewrite (inv_w _ _ i).
  destruct (inv_smp _ _ i) as [[h1 h2]|(h1 & A & B & e1 & e2 & e3 & e4)].
  - rewrite Z.min_l, Nat2Z.id, h2 by lia. exists xs.
    rewrite firstn_app, map_length, Nat.sub_diag, firstn_all2 by (rewrite map_length; lia).
    rewrite app_nil_r, lastn_all by lia. split; [reflexivity|apply Permutation_refl].
  - rewrite Z.min_r, Nat2Z.id, e2 by lia. exists (B ++ A).
    rewrite firstn_all2 by (rewrite map_length, app_length; lia).
    rewrite e1. split; [reflexivity|apply Permutation_app_comm].
Qed.

Lemma fmin_le xs : (forall x, In x xs -> (fmin xs <= x)%R) /\ (fmin xs <= big)%R /\
  (In (fmin xs) xs \/ fmin xs = big).
Proof.
  induction xs as [|x xs IH] using rev_ind; unfold fmin in *.
  - cbn; split; [intros x []|]. split; [lra|auto].
  - rewrite fold_left_app; cbn.
    set (m := fold_left (fun m x => if Rlt_dec x m then x else m) xs big) in *.
    destruct IH as (h1 & h2 & h3). destruct (Rlt_dec x m).
    + repeat split; try lra.
      * intros y hy; apply in_app_or in hy as [hy|[<-|[]]]; [|lra]. specialize (h1 y hy); lra.
      * left. apply in_or_app; right; left; reflexivity.
    + repeat split; auto.
      * intros y hy; apply in_app_or in hy as [hy|[<-|[]]]; [auto|lra].
      * destruct h3; [left; apply in_or_app; auto|auto].
Qed.

Lemma fmax_ge xs : (forall x, In x xs -> (x <= fmax xs)%R) /\ (tiny <= fmax xs)%R /\
  (In (fmax xs) xs \/ fmax xs = tiny).
Proof.
  induction xs as [|x xs IH] using rev_ind; unfold fmax in *.
  - cbn; split; [intros x []|]. split; [lra|auto].
  - rewrite fold_left_app; cbn.
    set (m := fold_left (fun m x => if Rlt_dec m x then x else m) xs tiny) in *.
    destruct IH as (h1 & h2 & h3). destruct (Rlt_dec m x).
    + repeat split; try lra.
      * intros y hy; apply in_app_or in hy as [hy|[<-|[]]]; [|lra]. specialize (h1 y hy); lra.
      * left. apply in_or_app; right; left; reflexivity.
    + repeat split; auto.
      * intros y hy; apply in_app_or in hy as [hy|[<-|[]]]; [auto|lra].
      * destruct h3; [left; apply in_or_app; auto|auto].
Qed.
End Acc.
