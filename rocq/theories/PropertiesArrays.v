(** C58: arrays of state values and index tables. *)

From Coq Require Import Reals ZArith List Bool Lia Lra.
From Verif Require Import Outcome Geom StateList ArrayMsg StateListProofs PropertiesState.
Import ListNotations.
Open Scope Z_scope.

(** ** Specification vocabulary *)

(** The numbers a variable consists of, and those of a state in the order of its variables. *)
Definition numbers (i : inst) : list R :=
  match ival i with VVec x => x | VQuat q => [qw q; qx q; qy q; qz q] end.
Definition all_numbers (s : state) : list R := flat_map numbers s.

(** ** Lemmas *)

Lemma assign_at : forall a x y b, assign (a ++ x :: b) (Z.of_nat (length a), y) = Ok (a ++ y :: b).
Proof.
  intros a x y b. unfold assign.
  replace ((0 <=? Z.of_nat (length a)) && (Z.of_nat (length a) <? Z.of_nat (length (a ++ x :: b)))) with true.
  - rewrite Nat2Z.id, firstn_app, firstn_all, Nat.sub_diag, app_nil_r.
    replace (S (length a)) with (length (a ++ [x])) by (rewrite app_length; cbn; lia).
    replace (a ++ x :: b) with ((a ++ [x]) ++ b) by (rewrite <- app_assoc; reflexivity).
    rewrite skipn_app, skipn_all, Nat.sub_diag. reflexivity.
  - symmetry. rewrite app_length. cbn [length]. apply andb_true_iff. split; [apply Z.leb_le|apply Z.ltb_lt]; lia.
Qed.

(** Writing the list [xs] to consecutive places. *)
Lemma assign_run : forall xs a old b, length old = length xs ->
  assign_all (a ++ old ++ b)
    (combine (map (fun k => Z.of_nat (length a) + Z.of_nat k) (seq 0 (length xs))) xs) = Ok (a ++ xs ++ b).
Proof.
  induction xs as [|x xs IH]; intros a [|o old] b H; try discriminate H; [reflexivity|].
  cbn [length seq map combine assign_all]. rewrite Z.add_0_r. cbn [app]. rewrite assign_at. cbn [bind].
  replace (a ++ x :: old ++ b) with ((a ++ [x]) ++ old ++ b) by (rewrite <- app_assoc; reflexivity).
  replace (a ++ x :: xs ++ b) with ((a ++ [x]) ++ xs ++ b) by (rewrite <- app_assoc; reflexivity).
  rewrite <- (IH (a ++ [x]) old b) by (injection H as H; exact H).
  f_equal. f_equal. rewrite <- seq_shift, map_map. apply map_ext. intros k. rewrite app_length. cbn. lia.
Qed.

Lemma assign_all_app : forall l1 l2 d, assign_all d (l1 ++ l2) = bind (assign_all d l1) (fun d' => assign_all d' l2).
Proof.
  induction l1 as [|a l1 IH]; intros l2 d; [reflexivity|]. cbn [app assign_all].
  destruct (assign d a); cbn [bind]; [apply IH|reflexivity|reflexivity].
Qed.

Lemma numbers_length : forall i, shape_ok i -> Z.of_nat (length (numbers i)) = state_len (Some (itype i)).
Proof.
  intros i H. unfold shape_ok in H. unfold numbers, state_len.
  destruct (vkd (itype i)), (ival i); try contradiction; [rewrite H|]; reflexivity.
Qed.

Lemma all_numbers_length : forall s, Forall shape_ok s ->
  Z.of_nat (length (all_numbers s)) = sum_len state_len (types s).
Proof.
  induction 1 as [|i s Hi Hs IH]; [reflexivity|]. cbn [all_numbers flat_map types map sum_len].
  rewrite app_length, Nat2Z.inj_add, (numbers_length i Hi). fold (all_numbers s) (types s). lia.
Qed.

Lemma to_array_one_run : forall l i, shape_ok i ->
  to_array_one l i = combine (map (fun k => start_index state_len l (itype i) + Z.of_nat k)
                                  (seq 0 (length (numbers i)))) (numbers i).
Proof.
  intros l i H. unfold to_array_one, numbers. destruct (ival i); [reflexivity|].
  cbn [length seq map combine]. rewrite Z.add_0_r. reflexivity.
Qed.

(** The variables [s2] of the state [s1 ++ s2 ++ s3] write their numbers behind those of [s1]. *)
Lemma arrays_run : forall s2 s1 s3 old rest, compiles (types (s1 ++ s2 ++ s3)) -> named (types (s1 ++ s2 ++ s3)) ->
  Forall shape_ok (s1 ++ s2 ++ s3) -> length old = length (all_numbers s2) ->
  assign_all (all_numbers s1 ++ old ++ rest) (flat_map (to_array_one (types (s1 ++ s2 ++ s3))) s2) =
  Ok (all_numbers (s1 ++ s2) ++ rest).
Proof.
  induction s2 as [|i s2 IH]; intros s1 s3 old rest Hc Hn Hs Hl.
  - destruct old; [|discriminate Hl]. rewrite app_nil_r. reflexivity.
  - cbn [flat_map]. rewrite assign_all_app.
    assert (Hi : shape_ok i) by (rewrite Forall_forall in Hs; apply Hs, in_or_app; right; left; reflexivity).
    assert (Hs1 : Forall shape_ok s1) by (apply Forall_app in Hs; apply Hs).
    rewrite (to_array_one_run _ i Hi).
    rewrite (start_index_at state_len _ (length s1) (itype i)); try assumption.
    2:{ apply types_nth. rewrite nth_error_app2 by lia. rewrite Nat.sub_diag. reflexivity. }
    replace (sum_len state_len (firstn (length s1) (types (s1 ++ (i :: s2) ++ s3)))) with (Z.of_nat (length (all_numbers s1))).
    2:{ rewrite (all_numbers_length s1 Hs1). unfold types. rewrite map_app, firstn_app, map_length, Nat.sub_diag.
        rewrite <- (map_length itype s1), firstn_all, app_nil_r. reflexivity. }
    cbn [all_numbers flat_map] in Hl. rewrite app_length in Hl.
    rewrite <- (firstn_skipn (length (numbers i)) old) at 1. rewrite <- app_assoc.
    rewrite assign_run by (rewrite firstn_length; lia). cbn [bind].
    assert (E : s1 ++ (i :: s2) ++ s3 = (s1 ++ [i]) ++ s2 ++ s3) by (rewrite <- app_assoc; reflexivity).
    rewrite E in *.
    replace (s1 ++ i :: s2) with ((s1 ++ [i]) ++ s2) by (rewrite <- app_assoc; reflexivity).
    replace (all_numbers s1 ++ numbers i ++ skipn (length (numbers i)) old ++ rest)
       with (all_numbers (s1 ++ [i]) ++ skipn (length (numbers i)) old ++ rest).
    + apply IH; try assumption. rewrite skipn_length. unfold all_numbers in *. lia.
    + unfold all_numbers. rewrite flat_map_app. cbn [flat_map]. rewrite app_nil_r, <- app_assoc. reflexivity.
Qed.

Lemma resize_length : forall n old, length (resize n old) = n.
Proof.
  intros n old. unfold resize. rewrite app_length, firstn_length, repeat_length. lia.
Qed.

(** ** C58 *)

(** The message holds the numbers of the state in their order, all of them and no others,
    whatever it held before. *)
Theorem C58_full_state : forall s old, compiles (types s) -> enum_ok (types s) -> Forall shape_ok s ->
  to_full_state_msg s old = Ok (all_numbers s).
Proof.
  intros s old Hc Hn Hs. unfold to_full_state_msg, to_array. rewrite count_states_sum by (exact pos_state || exact Hc).
  rewrite <- (all_numbers_length s Hs), Nat2Z.id.
  pose proof (arrays_run s [] [] (resize (length (all_numbers s)) old) []) as H.
  cbn [app all_numbers flat_map] in H. rewrite !app_nil_r in H. apply H; auto. apply resize_length.
Qed.
Print Assumptions C58_full_state.

(** So the message tells two states of one filter apart. *)
Lemma numbers_inj : forall i j, itype i = itype j -> shape_ok i -> shape_ok j -> numbers i = numbers j -> ival i = ival j.
Proof.
  intros i j Ht Hi Hj Hn. unfold shape_ok, numbers in *. rewrite Ht in Hi.
  destruct (vkd (itype j)), (ival i) as [x|q], (ival j) as [x'|q']; try contradiction.
  - subst. reflexivity.
  - destruct q, q'. cbn in Hn. injection Hn as -> -> -> ->. reflexivity.
Qed.

Theorem C58_full_state_determines : forall s s' m old old', types s = types s' ->
  compiles (types s) -> enum_ok (types s) -> Forall shape_ok s -> Forall shape_ok s' ->
  to_full_state_msg s old = Ok m -> to_full_state_msg s' old' = Ok m -> map ival s = map ival s'.
Proof.
  intros s s' m old old' Ht Hc Hn Hs Hs' H H'.
  rewrite C58_full_state in H by assumption. rewrite Ht in Hc, Hn. rewrite C58_full_state in H' by assumption.
  rewrite <- H in H'. injection H' as H'. clear - Ht Hs Hs' H'. revert s' Ht Hs' H'.
  induction Hs as [|i s Hi Hs IH]; intros [|j s'] Ht Hs' H; try discriminate Ht; [reflexivity|].
  injection Ht as Hij Ht. inversion Hs' as [|? ? Hj Hs'']; subst.
  cbn [all_numbers flat_map] in H.
  assert (Hl : length (numbers j) = length (numbers i)).
  { apply Nat2Z.inj. rewrite !numbers_length by assumption. rewrite Hij. reflexivity. }
  assert (Hsplit : numbers j = numbers i /\ flat_map numbers s' = flat_map numbers s).
  { revert Hl H. generalize (flat_map numbers s) (flat_map numbers s'). generalize (numbers i) (numbers j).
    induction l as [|x l IHl]; intros [|y k] r r' Hl H; try discriminate Hl; [auto|].
    cbn in H. injection H as -> H. injection Hl as Hl. destruct (IHl k r r' Hl H) as [-> ->]. auto. }
  destruct Hsplit as [E1 E2]. cbn [map]. f_equal; [apply numbers_inj; auto|]. apply IH; assumption.
Qed.
Print Assumptions C58_full_state_determines.

(** The core message and the vector the filter's sanity checks look at: the numbers of the core
    variables, if these come first. *)
Lemma core_split : forall s, core_first (types s) -> exists a b, s = a ++ b /\
  Forall (fun i => is_core (itype i) = true) a /\ Forall (fun i => is_core (itype i) = false) b.
Proof.
  intros s (la & lb & H & Ha & Hb). exists (firstn (length la) s), (skipn (length la) s).
  split; [symmetry; apply firstn_skipn|]. unfold types in H.
  assert (E1 : map itype (firstn (length la) s) = la).
  { rewrite <- firstn_map, H, firstn_app, firstn_all, Nat.sub_diag, app_nil_r. reflexivity. }
  assert (E2 : map itype (skipn (length la) s) = lb).
  { rewrite <- skipn_map, H, skipn_app, skipn_all, Nat.sub_diag. reflexivity. }
  rewrite <- E1 in Ha. rewrite <- E2 in Hb. rewrite Forall_map in Ha, Hb. auto.
Qed.

Definition core_numbers (s : state) : list R := all_numbers (filter (fun i => is_core (itype i)) s).

Lemma core_facts : forall s, compiles (types s) -> Forall shape_ok s -> core_first (types s) ->
  exists a b, s = a ++ b /\ core_to_array s = flat_map (to_array_one (types s)) a /\ core_numbers s = all_numbers a /\
    count_states core_state_len (types s) = Z.of_nat (length (all_numbers a)).
Proof.
  intros s Hc Hs Hf. destruct (core_split s Hf) as (a & b & E & Ha & Hb). exists a, b. split; [exact E|].
  assert (F1 : forall L, flat_map (fun i => if is_core (itype i) then to_array_one L i else []) a = flat_map (to_array_one L) a).
  { intros L. clear - Ha. induction Ha as [|i a Hi _ IH]; [reflexivity|]. cbn. rewrite Hi, IH. reflexivity. }
  assert (F2 : forall L, flat_map (fun i => if is_core (itype i) then to_array_one L i else []) b = []).
  { intros L. clear - Hb. induction Hb as [|i b Hi _ IH]; [reflexivity|]. cbn. rewrite Hi, IH. reflexivity. }
  assert (F3 : filter (fun i => is_core (itype i)) a = a).
  { clear - Ha. induction Ha as [|i a Hi _ IH]; [reflexivity|]. cbn. rewrite Hi, IH. reflexivity. }
  assert (F4 : filter (fun i => is_core (itype i)) b = []).
  { clear - Hb. induction Hb as [|i b Hi _ IH]; [reflexivity|]. cbn. rewrite Hi. exact IH. }
  split; [|split].
  - unfold core_to_array. generalize (types s). intros L. rewrite E, flat_map_app, F1, F2, app_nil_r. reflexivity.
  - unfold core_numbers. rewrite E, filter_app, F3, F4, app_nil_r. reflexivity.
  - rewrite count_states_sum by (exact pos_core_state || exact Hc). subst s. apply Forall_app in Hs as [Hsa _].
    rewrite all_numbers_length by exact Hsa. unfold types. rewrite map_app, sum_app.
    rewrite (sum_eq_on core_state_len state_len (map itype a)).
    + replace (sum_len core_state_len (map itype b)) with 0; [lia|].
      clear - Hb. induction Hb as [|i b Hi _ IH]; [reflexivity|]. cbn [map sum_len]. rewrite core_state_aux by exact Hi.
      rewrite <- IH. reflexivity.
    + intros x Hx. apply in_map_iff in Hx as (i & <- & Hi). apply core_state_core.
      rewrite Forall_forall in Ha. apply Ha, Hi.
Qed.

Theorem C58_core_state : forall s old, compiles (types s) -> enum_ok (types s) -> Forall shape_ok s ->
  core_first (types s) -> to_core_state_msg s old = Ok (core_numbers s).
Proof.
  intros s old Hc Hn Hs Hf. destruct (core_facts s Hc Hs Hf) as (a & b & E & E1 & E2 & E3).
  unfold to_core_state_msg. rewrite E1, E2, E3, Nat2Z.id. rewrite E in *.
  pose proof (arrays_run a [] b (resize (length (all_numbers a)) old) []) as H.
  cbn [app all_numbers flat_map] in H. rewrite !app_nil_r in H. apply H; auto. apply resize_length.
Qed.
Print Assumptions C58_core_state.

Theorem C58_core_vector : forall s old, compiles (types s) -> enum_ok (types s) -> Forall shape_ok s ->
  core_first (types s) -> Z.of_nat (length old) = count_states core_state_len (types s) ->
  to_eigen_vector s old = Ok (core_numbers s).
Proof.
  intros s old Hc Hn Hs Hf Hl. destruct (core_facts s Hc Hs Hf) as (a & b & E & E1 & E2 & E3).
  unfold to_eigen_vector. rewrite E1, E2. rewrite E3 in Hl. rewrite E in *.
  pose proof (arrays_run a [] b old []) as H.
  cbn [app all_numbers flat_map] in H. rewrite !app_nil_r in H. apply H; auto. lia.
Qed.
Print Assumptions C58_core_vector.

(** The order is not checked by the static assertions: with an auxiliary variable in front the
    core message is written outside of its array. *)
Theorem C58_core_order_refuted : exists s, compiles (types s) /\ enum_ok (types s) /\ Forall shape_ok s /\
  forall old, to_core_state_msg s old = UB.
Proof.
  exists [Inst (Svar (KVec 1) 0 Aux 0) (VVec [1%R]) (fun _ _ => 0%R) false;
          Inst (Svar (KVec 3) 1 CoreProp 0) (VVec [2%R; 3%R; 4%R]) (fun _ _ => 0%R) false].
  split; [reflexivity|]. split.
  { intros x Hx. cbn in Hx. repeat destruct Hx as [<-|Hx]; cbn; try lia; try contradiction. }
  split; [repeat constructor|]. intros old. unfold to_core_state_msg.
  change (Z.to_nat _) with 3%nat. pose proof (resize_length 3 old) as H.
  destruct (resize 3 old) as [|x [|y [|z [|]]]]; try discriminate H. reflexivity.
Qed.
Print Assumptions C58_core_order_refuted.

(** The index table lists every variable once, in order, with consecutive ranges that fill the
    error state. *)
Fixpoint consecutive (from : Z) (l : list (Z * Z * Z)) (total : Z) : Prop :=
  match l with
  | [] => from = total
  | (_, start, len) :: l' => start = from /\ 0 <= len /\ consecutive (from + len) l' total
  end.

Theorem C58_indices : forall s, compiles (types s) -> enum_ok (types s) ->
  let t := indices_in_error_state s in
  consecutive 0 t (count_states corr_len (types s)) /\
  map (fun e => fst (fst e)) t = map Z.of_nat (seq 0 (length s)) /\
  map snd t = map err_width (types s).
Proof.
  intros s Hc Hn t. split; [|split].
  - rewrite count_states_sum by (exact pos_corr || exact Hc). unfold t, indices_in_error_state.
    assert (G : forall s2 s1, s = s1 ++ s2 ->
      consecutive (sum_len corr_len (types s1))
        (map (fun i => (vname (itype i), start_index corr_len (types s) (itype i), corr_len (Some (itype i)))) s2)
        (sum_len corr_len (types s))).
    { induction s2 as [|i s2 IH]; intros s1 E; cbn [map consecutive].
      - rewrite E, app_nil_r. reflexivity.
      - split; [|split].
        + rewrite (start_index_at corr_len (types s) (length s1) (itype i)); try assumption.
          * rewrite E. unfold types. rewrite map_app, firstn_app, map_length, Nat.sub_diag.
            rewrite <- (map_length itype s1), firstn_all, app_nil_r. reflexivity.
          * apply types_nth. rewrite E, nth_error_app2 by lia. rewrite Nat.sub_diag. reflexivity.
        + apply pos_corr.
        + replace (sum_len corr_len (types s1) + corr_len (Some (itype i))) with (sum_len corr_len (types (s1 ++ [i]))).
          * apply IH. rewrite <- app_assoc. exact E.
          * unfold types. rewrite map_app, sum_app. cbn [map sum_len]. lia. }
    exact (G s [] eq_refl).
  - unfold t, indices_in_error_state. rewrite map_map. cbn [fst].
    apply nth_ext with (d := 0) (d' := 0).
    + rewrite !map_length, seq_length. reflexivity.
    + intros n Hlt. rewrite map_length in Hlt.
      destruct (nth_error s n) as [i|] eqn:Ei.
      * rewrite (nth_error_nth _ _ _ (map_nth_error _ _ _ Ei)).
        rewrite (compiles_names (types s) Hc Hn n (itype i) (types_nth _ _ _ Ei)).
        change (Z.of_nat n = nth n (map Z.of_nat (seq 0 (length s))) (Z.of_nat 0)).
        rewrite map_nth, seq_nth by exact Hlt. reflexivity.
      * apply nth_error_None in Ei. lia.
  - unfold t, indices_in_error_state, types. rewrite !map_map. reflexivity.
Qed.
Print Assumptions C58_indices.

(** The propagated core variables take a prefix of the error state if they come first; the
    failure detector relies on nine entries. *)
Definition propagated (x : svar) : Prop := vtype x = CoreProp.

Lemma pos_prop : pos_cnt prop_err_len.
Proof. split; [reflexivity|]. intros x. unfold prop_err_len. destruct (vtype x), (vkd x); lia. Qed.

Theorem C58_propagated : forall a b, compiles (a ++ b) -> enum_ok (a ++ b) ->
  Forall propagated a -> Forall (fun x => ~ propagated x) b ->
  forall k, 0 <= k < count_states prop_err_len (a ++ b) <->
    exists x, In x (a ++ b) /\ propagated x /\
  start_index corr_len (a ++ b) x <= k < start_index corr_len (a ++ b) x + err_width x.
Proof.
  intros a b Hc Hn Ha Hb k.
  assert (E : count_states prop_err_len (a ++ b) = sum_len corr_len a).
  { rewrite count_states_sum by (exact pos_prop || exact Hc). rewrite sum_app.
    rewrite (sum_eq_on prop_err_len corr_len a).
    - replace (sum_len prop_err_len b) with 0; [lia|]. clear - Hb.
      induction Hb as [|x b Hx _ IH]; [reflexivity|]. cbn [sum_len]. rewrite <- IH.
      unfold prop_err_len, propagated in *. destruct (vtype x); [congruence|reflexivity..].
    - intros x Hx. rewrite Forall_forall in Ha. specialize (Ha x Hx). unfold propagated in Ha.
      unfold prop_err_len, corr_len. rewrite Ha. reflexivity. }
  rewrite E. split.
  - intros Hk. destruct (sum_slot corr_len a k pos_corr Hk) as (i & x & Hi & Hb').
    exists x. assert (Hin : In x a) by (eapply nth_error_In, Hi).
    split; [apply in_or_app; left; exact Hin|]. split; [rewrite Forall_forall in Ha; exact (Ha x Hin)|].
    assert (Hlt : (i < length a)%nat) by (apply nth_error_Some; rewrite Hi; discriminate).
    rewrite (start_index_at corr_len (a ++ b) i x) by (try assumption; rewrite nth_error_app1; assumption).
    rewrite firstn_app. replace (i - length a)%nat with 0%nat by lia. rewrite app_nil_r. exact Hb'.
  - intros (x & Hin & Hp & Hk). apply in_app_or in Hin as [Hin|Hin].
    + apply In_nth_error in Hin as [i Hi].
      assert (Hlt : (i < length a)%nat) by (apply nth_error_Some; rewrite Hi; discriminate).
      rewrite (start_index_at corr_len (a ++ b) i x) in Hk by (try assumption; rewrite nth_error_app1; assumption).
      rewrite firstn_app in Hk. replace (i - length a)%nat with 0%nat in Hk by lia. rewrite app_nil_r in Hk.
      pose proof (sum_nonneg corr_len (firstn i a) pos_corr).
      pose proof (sum_firstn_le corr_len a (S i) (length a) pos_corr Hlt) as H1.
      rewrite firstn_all in H1. rewrite (sum_firstn_S corr_len a i x Hi) in H1.
      change (err_width x) with (corr_len (Some x)) in Hk. lia.
    + rewrite Forall_forall in Hb. destruct (Hb x Hin Hp).
Qed.
Print Assumptions C58_propagated.

(** A state of the pose filter; variable k holds the numbers 10 k, 10 k + 1, ... *)
Definition ex_state : state :=
  map (fun t => Inst t (match vkd t with
                        | KVec n => VVec (map (fun k => IZR (10 * vname t + Z.of_nat k)) (seq 0 n))
                        | KQuat => VQuat (Quat (IZR (10 * vname t)) (IZR (10 * vname t + 1)) (IZR (10 * vname t + 2)) (IZR (10 * vname t + 3)))
                        end) (fun _ _ => 0%R) false) pose_list.

Example C58_ex : types ex_state = pose_list /\ compiles (types ex_state) /\ enum_ok (types ex_state) /\
  Forall shape_ok ex_state /\ core_first (types ex_state) /\
  to_full_state_msg ex_state [7%R] =
    Ok (map IZR [0; 1; 2; 10; 11; 12; 20; 21; 22; 23; 30; 31; 32; 40; 41; 42; 50; 60; 61; 62; 63; 70; 71; 72; 80; 81; 82; 83; 90; 91; 92]) /\
  to_core_state_msg ex_state [] = Ok (map IZR [0; 1; 2; 10; 11; 12; 20; 21; 22; 23; 30; 31; 32; 40; 41; 42]) /\
  indices_in_error_state ex_state =
    [(0, 0, 3); (1, 3, 3); (2, 6, 3); (3, 9, 3); (4, 12, 3); (5, 15, 1); (6, 16, 3); (7, 19, 3); (8, 22, 3); (9, 25, 3)] /\
  count_states prop_err_len pose_list = 9.
Proof.
  assert (T : types ex_state = pose_list) by reflexivity. rewrite T.
  assert (S : Forall shape_ok ex_state) by (repeat constructor).
  split; [reflexivity|]. split; [apply pose_list_ok|]. split; [apply pose_list_ok|]. split; [exact S|].
  split; [apply C26_core_prefix_ex|].
  split; [rewrite C58_full_state by (rewrite ?T; auto; apply pose_list_ok); reflexivity|].
  split; [rewrite C58_core_state by (rewrite ?T; auto; apply pose_list_ok || apply C26_core_prefix_ex); reflexivity|].
  split; reflexivity.
Qed.
