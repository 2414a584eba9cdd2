(** What [is_ccw] computes for a closed ring: the turn at a
    highest vertex, or the direction of a flat top. *)
From Coq Require Import ZArith Bool List Reals Lia Lra.
From Flocq Require Raux.
From Verif Require Import Base F64 F64Facts F64Err DD_spec Coordinate_model CoordSeq_model Orientation_model Orientation_spec
  Orientation_proofs Measure_spec.
Import ListNotations.
Open Scope Z_scope.

Definition turn2 (a b c : Z * Z) : Z := (fst b - fst a) * (snd c - snd a) - (snd b - snd a) * (fst c - fst a).
Lemma least (f : nat -> bool) d : f d = true -> exists k, (k <= d)%nat /\ f k = true /\ forall j, (j < k)%nat -> f j = false.
Proof.
  induction d as [d IH] using (well_founded_induction lt_wf). intros H.
  destruct (existsb f (seq 0 d)) eqn:E.
  - apply existsb_exists in E. destruct E as (j & I & Fj). apply in_seq in I. destruct (IH j ltac:(lia) Fj) as (k & Hk & R). exists k. split; [lia|exact R].
  - exists d. split; [lia|]. split; [exact H|]. intros j Hj. destruct (f j) eqn:Fj; [|reflexivity].
    assert (existsb f (seq 0 d) = true) by (apply existsb_exists; exists j; split; [apply in_seq; lia|exact Fj]). congruence.
Qed.
Lemma mod_pred u n : (0 < n)%nat -> (0 < u)%nat ->
  (if (0 <? u mod n)%nat then (u mod n - 1)%nat else (n - 1)%nat) = ((u - 1) mod n)%nat.
Proof.
  intros Hn Hu. pose proof (Nat.div_mod u n ltac:(lia)) as D. pose proof (Nat.mod_upper_bound u n ltac:(lia)) as B.
  destruct (Nat.ltb_spec 0 (u mod n)).
  - apply (Nat.mod_unique (u - 1) n (u / n)); lia.
  - apply (Nat.mod_unique (u - 1) n (u / n - 1)); [lia|]. assert (u mod n = 0)%nat by lia. destruct (u / n)%nat eqn:Q; [lia|]. lia.
Qed.

(** The difference of two doubles has the right sign. *)
Lemma sub_ltb0 x y : bf 1000 x -> bf 1000 y -> fltb (fsub x y) f0 = fltb x y.
Proof.
  intros Bx By. destruct (bf_sub 1000 x y ltac:(lia) Bx By) as ((F & _) & E).
  pose proof (RN_sub_err _ _ (format_R x) (format_R y)) as Er. rewrite <- E in Er.
  rewrite !fltb_R by (assumption || apply Bx || apply By || reflexivity). change (R_of f0) with 0%R.
  pose proof u53_pos as Up. pose proof u53_small as Us. apply Raux.Rabs_le_inv in Er.
  destruct (Raux.Rlt_bool_spec (R_of x) (R_of y)) as [L|L].
  - rewrite Rabs_left in Er by lra. apply Raux.Rlt_bool_true. nra.
  - rewrite Rabs_pos_eq in Er by lra. apply Raux.Rlt_bool_false. nra.
Qed.
(** The turn the code looks at, at a highest vertex between two lower ones, has
    the right orientation. *)
Definition top_right (zs : list (Z * Z)) (cs : list Coordinate) (n : nat) : Prop :=
  let zp i := nth i zs (0, 0) in let pt i := nth i cs coord_default in
  forall u k, (u < n)%nat -> snd (zp u) < snd (zp (S u)) -> (forall i, (i <= n)%nat -> snd (zp i) <= snd (zp (S u))) ->
    zp (k mod n)%nat = zp (S u) -> snd (zp (S k mod n)%nat) < snd (zp (S u)) ->
    is_sign (orient (pt u) (pt (S u)) (pt (S k mod n)%nat)) (det_pts (pt u) (pt (S u)) (pt (S k mod n)%nat)).

Section Cap.
Context (e : Z) (s : CSeq) (zs : list (Z * Z)) (n : nat).
Notation pt i := (nth i (scoords s) coord_default).
Notation zp i := (nth i zs (0, 0)).
Context (G : on_grid e zs (scoords s)) (HB : forall i, (i <= n)%nat -> bf 1000 (cx (pt i)))
  (HO : top_right zs (scoords s) n)
  (Ln : length zs = S n) (N3 : (3 <= n)%nat) (Cl : zp 0 = zp n).
Lemma cap_len : length (scoords s) = S n.
Proof. pose proof G as H. unfold on_grid in H. rewrite <- Ln. clear - H. induction H; cbn; congruence. Qed.
Lemma cap_grid i : (i <= n)%nat -> grid e (cx (pt i)) (fst (zp i)) /\ grid e (cy (pt i)) (snd (zp i)).
Proof.
  intros Hi. assert (i < length zs)%nat as Hz by lia. pose proof G as H. unfold on_grid in H. clear - H Hz. revert i Hz.
  induction H as [|z c l cs H F IH]; intros i Hi; [cbn in Hi; lia|]. destruct i; [exact H|]. cbn [nth]. apply IH. cbn in Hi. lia.
Qed.
Lemma cap_eq i j : (i <= n)%nat -> (j <= n)%nat -> equals_2d (pt i) (pt j) = ((fst (zp i) =? fst (zp j)) && (snd (zp i) =? snd (zp j))).
Proof.
  intros Hi Hj. destruct (cap_grid i Hi) as (A1 & A2), (cap_grid j Hj) as (B1 & B2). rewrite equals_2d_eqb.
  now rewrite (grid_eqb e _ _ _ _ A1 B1), (grid_eqb e _ _ _ _ A2 B2).
Qed.
Lemma cap_orient i j k : (i <= n)%nat -> (j <= n)%nat -> (k <= n)%nat ->
  is_sign (orient (pt i) (pt j) (pt k)) (det_pts (pt i) (pt j) (pt k)) ->
  (orient (pt i) (pt j) (pt k) =? 1) = (0 <? turn2 (zp i) (zp j) (zp k)).
Proof.
  intros Hi Hj Hk O.
  assert (det_pts (pt i) (pt j) (pt k) = (IZR (turn2 (zp i) (zp j) (zp k)) * (bp e * bp e))%R) as E.
  { destruct (cap_grid i Hi) as ((_ & A1) & (_ & A2)), (cap_grid j Hj) as ((_ & B1) & (_ & B2)), (cap_grid k Hk) as ((_ & C1) & (_ & C2)).
    unfold det_pts, det3, turn2. rewrite A1, A2, B1, B2, C1, C2. rewrite minus_IZR, !mult_IZR, !minus_IZR. ring. }
  rewrite E in O. assert (0 < bp e * bp e)%R as P by (apply Rmult_lt_0_compat; apply Flocq.Core.Raux.bpow_gt_0).
  assert (forall z, (0 < IZR z * (bp e * bp e))%R <-> 0 < z) as Sg.
  { intros z. split; intros H.
    - apply lt_IZR. nra.
    - apply IZR_lt in H. nra. }
  destruct (Z.ltb_spec 0 (turn2 (zp i) (zp j) (zp k))) as [H|H].
  - apply Sg in H. destruct O as [(-> & _)|[(_ & O)|(_ & O)]]; [reflexivity|lra..].
  - destruct O as [(_ & O)|[(-> & _)|(-> & _)]]; [apply Sg in O; lia|reflexivity..].
Qed.

Definition top_inv (i : nat) (st : CapState) : Prop :=
  prev_y st = cy (pt (i - 1)) /\ (i_up_hi st < i)%nat /\ up_hi st = pt (i_up_hi st) /\
  (forall j, (j < i)%nat -> snd (zp j) <= snd (zp (i_up_hi st))) /\
  ((i_up_hi st = 0%nat /\ forall j, (0 < j < i)%nat -> snd (zp (j - 1)) < snd (zp j) -> snd (zp j) < snd (zp 0)) \/
   ((0 < i_up_hi st)%nat /\ up_low st = pt (i_up_hi st - 1) /\ snd (zp (i_up_hi st - 1)) < snd (zp (i_up_hi st)))).
Lemma top_step i st : (1 <= i < 1 + n)%nat -> top_inv i st -> exists st', cap_step s i st = Ok st' /\ top_inv (S i) st'.
Proof.
  intros Hi (P & U & H & M & C). unfold cap_step. rewrite seq_get_y by (rewrite cap_len; lia). cbn [bind]. rewrite P, H.
  destruct (cap_grid i ltac:(lia)) as (_ & Gi), (cap_grid (i - 1) ltac:(lia)) as (_ & Gp), (cap_grid (i_up_hi st) ltac:(lia)) as (_ & Gh).
  unfold fgtb, fgeb. change (@Flocq.IEEE754.BinarySingleNaN.Bltb 53 1024) with fltb. change (@Flocq.IEEE754.BinarySingleNaN.Bleb 53 1024) with fleb.
  rewrite (grid_ltb e _ _ _ _ Gp Gi), (grid_leb e _ _ _ _ Gh Gi).
  destruct (Z.ltb_spec (snd (zp (i - 1))) (snd (zp i))) as [L1|L1]; destruct (Z.leb_spec (snd (zp (i_up_hi st))) (snd (zp i))) as [L2|L2]; cbn [andb bind].
  - rewrite !seq_coord_nth by (rewrite cap_len; lia). cbn [bind]. eexists. split; [reflexivity|]. unfold top_inv. cbn [prev_y i_up_hi up_hi up_low].
    replace (S i - 1)%nat with i by lia. repeat split; try reflexivity; try lia.
    + intros j Hj. destruct (Nat.eq_dec j i) as [->|]; [lia|]. specialize (M j ltac:(lia)). lia.
    + right. repeat split; [lia|exact L1].
  - eexists. split; [reflexivity|]. unfold top_inv. cbn [prev_y i_up_hi up_hi up_low]. replace (S i - 1)%nat with i by lia.
    repeat split; [lia|exact H| |].
    + intros j Hj. destruct (Nat.eq_dec j i) as [->|]; [lia|]. apply M. lia.
    + destruct C as [(C1 & C2)|C]; [left|right; exact C]. split; [exact C1|]. intros j Hj Lj. destruct (Nat.eq_dec j i) as [->|]; [rewrite C1 in L2; exact L2|]. apply C2; [lia|exact Lj].
  - eexists. split; [reflexivity|]. unfold top_inv. cbn [prev_y i_up_hi up_hi up_low]. replace (S i - 1)%nat with i by lia.
    repeat split; [lia|exact H| |].
    + intros j Hj. destruct (Nat.eq_dec j i) as [->|]; [specialize (M (i - 1)%nat ltac:(lia)); lia|]. apply M. lia.
    + destruct C as [(C1 & C2)|C]; [left|right; exact C]. split; [exact C1|]. intros j Hj Lj. destruct (Nat.eq_dec j i) as [->|]; [lia|]. apply C2; [lia|exact Lj].
  - eexists. split; [reflexivity|]. unfold top_inv. cbn [prev_y i_up_hi up_hi up_low]. replace (S i - 1)%nat with i by lia.
    repeat split; [lia|exact H| |].
    + intros j Hj. destruct (Nat.eq_dec j i) as [->|]; [lia|]. apply M. lia.
    + destruct C as [(C1 & C2)|C]; [left|right; exact C]. split; [exact C1|]. intros j Hj Lj. destruct (Nat.eq_dec j i) as [->|]; [lia|]. apply C2; [lia|exact Lj].
Qed.
Lemma top_loop : exists st, forN n 1 (mkCap (pt 0) (cy (pt 0)) coord_default 0) (cap_step s) = Ok st /\ top_inv (1 + n) st.
Proof.
  apply (forN_ind top_inv (cap_step s)).
  - unfold top_inv. cbn [prev_y i_up_hi up_hi up_low]. repeat split; try reflexivity; try lia.
    + intros j Hj. assert (j = 0)%nat by lia. subst. lia.
    + left. split; [reflexivity|lia].
  - intros i st Hi I. now apply top_step.
Qed.
(** The second loop finds the first vertex below the top. *)
Lemma down_first iup d : forall fuel i, (1 <= iup <= n)%nat -> (0 < d <= fuel)%nat ->
  (forall t, (0 < t < d)%nat -> ((i + t) mod n)%nat <> iup /\ snd (zp ((i + t) mod n)) = snd (zp iup)) ->
  snd (zp ((i + d) mod n)) <> snd (zp iup) ->
  down_loop fuel s n iup (cy (pt iup)) i = Ok (Some ((i + d) mod n)%nat).
Proof.
  induction d as [|d IH]; intros fuel i Hu Hd Run Low; [lia|]. destruct fuel as [|fuel]; [lia|]. cbn [down_loop].
  assert (forall k, (k mod n < n)%nat) as Mod by (intros; apply Nat.mod_upper_bound; lia).
  pose proof (Mod (i + 1)%nat) as M1. rewrite seq_get_y by (rewrite cap_len; lia). cbn [bind].
  destruct (cap_grid ((i + 1) mod n) ltac:(lia)) as (_ & G1), (cap_grid iup ltac:(lia)) as (_ & G2). rewrite (grid_eqb e _ _ _ _ G1 G2).
  destruct d as [|d].
  - destruct (Nat.eqb_spec ((i + 1) mod n) iup) as [Q|Q]; [rewrite Q; reflexivity|].
    destruct (Z.eqb_spec (snd (zp ((i + 1) mod n))) (snd (zp iup))); [congruence|reflexivity].
  - destruct (Run 1%nat ltac:(lia)) as (R1 & R2). destruct (Nat.eqb_spec ((i + 1) mod n) iup); [contradiction|].
    rewrite R2, Z.eqb_refl. assert (forall t, (((i + 1) mod n + t) mod n = (i + S t) mod n)%nat) as E.
    { intros t. rewrite Nat.add_mod_idemp_l by lia. f_equal. lia. }
    rewrite <- (E (S d)). apply IH; try lia.
    + intros t Ht. rewrite E. apply Run. lia.
    + rewrite E. exact Low.
Qed.
Lemma cap_result_gen :
  ((forall i, (i <= n)%nat -> snd (zp i) = snd (zp 0)) /\ is_ccw_seq s = Ok (Some false)) \/
  exists u d, (u < n)%nat /\ (1 <= d < n)%nat /\ (forall i, (i <= n)%nat -> snd (zp i) <= snd (zp (S u))) /\ snd (zp u) < snd (zp (S u)) /\
    (forall t, (t < d)%nat -> snd (zp ((S u + t) mod n)) = snd (zp (S u))) /\ snd (zp ((S u + d) mod n)) < snd (zp (S u)) /\
    is_ccw_seq s = Ok (Some (if (fst (zp (S u)) =? fst (zp ((S u + d - 1) mod n))) then 0 <? turn2 (zp u) (zp (S u)) (zp ((S u + d) mod n))
                             else fst (zp ((S u + d - 1) mod n)) <? fst (zp (S u)))).
Proof.
  assert (forall k, (k mod n < n)%nat) as Mod by (intros; apply Nat.mod_upper_bound; lia).
  destruct top_loop as (st & El & (P & U & H & M & C)).
  assert (is_ccw_seq s = (if Nat.eqb (i_up_hi st) 0 then Ok (Some false) else
      r <- down_loop (S n) s n (i_up_hi st) (cy (up_hi st)) (i_up_hi st) ;;
      match r with
      | None => Ok None
      | Some i_down_low =>
        down_low_pt <- seq_coord s i_down_low ;;
        let i_down_hi := if (0 <? i_down_low)%nat then (i_down_low - 1)%nat else (n - 1)%nat in
        down_hi_pt <- seq_coord s i_down_hi ;;
        if equals_2d (up_hi st) down_hi_pt then
          if equals_2d (up_low st) (up_hi st) || equals_2d down_low_pt (up_hi st) || equals_2d (up_low st) down_low_pt
          then Ok (Some false)
          else Ok (Some (orient (up_low st) (up_hi st) down_low_pt =? 1))
        else Ok (Some (fltb (fsub (cx down_hi_pt) (cx (up_hi st))) f0))
      end)) as Ec.
  { unfold is_ccw_seq, seq_size, usub. rewrite cap_len. destruct (Nat.leb_spec 1 (S n)); [|lia]. cbn [bind].
    replace (S n - 1)%nat with n by lia. destruct (Nat.ltb_spec n 3); [lia|]. rewrite seq_coord_nth by (rewrite cap_len; lia). cbn [bind]. rewrite El. reflexivity. }
  rewrite Ec. clear Ec. destruct C as [(C1 & C2)|(C1 & C2 & C3)].
  - left. rewrite C1. split; [|reflexivity]. rewrite C1 in M.
    assert (forall k, (k <= n)%nat -> snd (zp (n - k)) = snd (zp 0)) as K.
    { induction k as [|k IH]; intros Hk; [rewrite Nat.sub_0_r, <- Cl; reflexivity|]. specialize (IH ltac:(lia)).
      pose proof (M (n - S k)%nat ltac:(lia)) as Le. destruct (Z.eq_dec (snd (zp (n - S k))) (snd (zp 0))) as [|Ne]; [assumption|exfalso].
      specialize (C2 (n - k)%nat ltac:(lia)). replace (n - k - 1)%nat with (n - S k)%nat in C2 by lia. lia. }
    intros i Hi. replace i with (n - (n - i))%nat by lia. apply K. lia.
  - right. set (iup := i_up_hi st) in *. destruct (Nat.eqb_spec iup 0) as [|_]; [lia|]. rewrite H, C2.
    (* the first lower vertex *)
    destruct (least (fun d => negb (snd (zp ((iup + S d) mod n)) =? snd (zp iup))) (n - 2)) as (k & Hk & Fk & Mk).
    { replace (iup + S (n - 2))%nat with (iup - 1 + 1 * n)%nat by lia. rewrite Nat.mod_add, Nat.mod_small by lia.
      destruct (Z.eqb_spec (snd (zp (iup - 1))) (snd (zp iup))); [lia|reflexivity]. }
    apply negb_true_iff, Z.eqb_neq in Fk.
    assert (forall t, (0 < t < S k)%nat -> snd (zp ((iup + t) mod n)) = snd (zp iup)) as Run.
    { intros t Ht. specialize (Mk (t - 1)%nat ltac:(lia)). apply negb_false_iff, Z.eqb_eq in Mk. replace (S (t - 1)) with t in Mk by lia. exact Mk. }
    assert (zp (iup mod n) = zp iup) as E0.
    { destruct (Nat.eq_dec iup n) as [->|]; [rewrite Nat.mod_same by lia; exact Cl|rewrite Nat.mod_small by lia; reflexivity]. }
    assert (down_loop (S n) s n iup (cy (pt iup)) iup = Ok (Some ((iup + S k) mod n)%nat)) as Ed.
    { apply down_first; [lia..| |exact Fk]. intros t Ht. split; [|now apply Run].
      intros Q. pose proof (Mod (iup + t)%nat). rewrite Q in *. assert (iup < n)%nat by lia.
      pose proof (Nat.div_mod (iup + t) n ltac:(lia)) as D. rewrite Q in D. destruct ((iup + t) / n)%nat as [|[|q]]; nia. }
    rewrite Ed. cbn [bind]. pose proof (Mod (iup + S k)%nat) as Mj.
    rewrite seq_coord_nth by (rewrite cap_len; lia). cbn [bind].
    rewrite mod_pred by lia. replace (iup + S k - 1)%nat with (iup + k)%nat by lia. pose proof (Mod (iup + k)%nat) as Mh.
    rewrite seq_coord_nth by (rewrite cap_len; lia). cbn [bind].
    exists (iup - 1)%nat, (S k). replace (S (iup - 1)) with iup by lia.
    assert (snd (zp ((iup + k) mod n)) = snd (zp iup)) as Yh.
    { destruct k as [|k]; [rewrite Nat.add_0_r, E0; reflexivity|]. apply Run. lia. }
    assert (snd (zp ((iup + S k) mod n)) < snd (zp iup)) as Yl by (pose proof (M ((iup + S k) mod n)%nat ltac:(lia)); lia).
    split; [lia|]. split; [lia|]. split; [intros i Hi; apply M; lia|]. split; [exact C3|].
    split; [intros [|t] Ht; [rewrite Nat.add_0_r, E0; reflexivity|apply Run; lia]|]. split; [exact Yl|].
    replace (iup + S k - 1)%nat with (iup + k)%nat by lia.
    rewrite !cap_eq by lia. rewrite Yh, Z.eqb_refl, andb_true_r.
    destruct (Z.eqb_spec (fst (zp iup)) (fst (zp ((iup + k) mod n)))) as [Q|Q].
    + destruct (Z.eqb_spec (snd (zp (iup - 1))) (snd (zp iup))); [lia|]. destruct (Z.eqb_spec (snd (zp ((iup + S k) mod n))) (snd (zp iup))); [lia|].
      rewrite !andb_false_r. cbn [orb]. rewrite cap_orient; [|lia..|].
      2: { pose proof (HO (iup - 1)%nat (iup + k)%nat) as T. cbv zeta in T. replace (S (iup - 1)) with iup in T by lia.
           replace (S (iup + k)) with (iup + S k)%nat in T by lia. apply T; [lia|exact C3|intros i Hi; apply M; lia| |exact Yl].
           clear - Q Yh. destruct (zp iup), (zp ((iup + k) mod n)). cbn [fst snd] in *. congruence. }
      destruct (Z.eqb_spec (fst (zp (iup - 1))) (fst (zp ((iup + S k) mod n)))) as [Q1|Q1]; cbn [andb]; [|reflexivity].
      destruct (Z.eqb_spec (snd (zp (iup - 1))) (snd (zp ((iup + S k) mod n)))) as [Q2|Q2]; [|reflexivity].
      do 2 f_equal. symmetry. apply Z.ltb_ge. unfold turn2. rewrite <- Q1, <- Q2. nia.
    + do 2 f_equal. destruct (cap_grid ((iup + k) mod n) ltac:(lia)) as (G1 & _), (cap_grid iup ltac:(lia)) as (G2 & _).
      rewrite sub_ltb0 by (apply HB; lia). now rewrite (grid_ltb e _ _ _ _ G1 G2).
Qed.
End Cap.
(** On a grid all turns have the right orientation. *)
Lemma grid_nth e zs cs i : on_grid e zs cs -> (i < length zs)%nat ->
  grid e (cx (nth i cs coord_default)) (fst (nth i zs (0, 0))) /\ grid e (cy (nth i cs coord_default)) (snd (nth i zs (0, 0))).
Proof.
  intros H. revert i. unfold on_grid in H.
  induction H as [|z c l cs H F IH]; intros i Hi; [cbn in Hi; lia|]. destruct i; [exact H|]. cbn [nth]. apply IH. cbn in Hi. lia.
Qed.
Lemma within_nth k zs i : within k zs -> (i < length zs)%nat -> Z.abs (fst (nth i zs (0, 0))) <= k /\ Z.abs (snd (nth i zs (0, 0))) <= k.
Proof. intros W Hi. apply (Forall_forall (fun z => Z.abs (fst z) <= k /\ Z.abs (snd z) <= k) zs); [exact W|]. now apply nth_In. Qed.
Lemma gpt_nth e zs cs i : on_grid e zs cs -> within (2 ^ 49) zs -> (i < length zs)%nat -> gpt e (nth i cs coord_default).
Proof. intros G W Hi. destruct (grid_nth e zs cs i G Hi), (within_nth _ zs i W Hi). split; eauto. Qed.
Lemma top_right_grid e zs cs n : -440 <= e <= 420 -> on_grid e zs cs -> within (2 ^ 49) zs -> length zs = S n -> (0 < n)%nat -> top_right zs cs n.
Proof.
  intros He G W Ln N u k Hu _ _ _ _. assert ((S k mod n < n)%nat) by (apply Nat.mod_upper_bound; lia).
  apply (orient_grid e); [exact He|..]; apply (gpt_nth e zs); try assumption; lia.
Qed.
Lemma bf_nth e zs cs n i : -440 <= e <= 420 -> on_grid e zs cs -> within (2 ^ 49) zs -> length zs = S n -> (i <= n)%nat -> bf 1000 (cx (nth i cs coord_default)).
Proof.
  intros He G W Ln Hi. destruct (grid_nth e zs cs i G ltac:(lia)) as (Gx & _). destruct (within_nth _ zs i W ltac:(lia)) as (Bx & _).
  apply bf_weak with (49 + e); [lia|]. exact (grid_bf e 49 _ _ Bx ltac:(lia) Gx).
Qed.
Lemma cap_result e s zs n : -440 <= e <= 420 -> on_grid e zs (scoords s) -> within (2 ^ 49) zs -> length zs = S n -> (3 <= n)%nat ->
  let zp i := nth i zs (0, 0) in zp 0%nat = zp n ->
  ((forall i, (i <= n)%nat -> snd (zp i) = snd (zp 0%nat)) /\ is_ccw_seq s = Ok (Some false)) \/
  exists u d, (u < n)%nat /\ (1 <= d < n)%nat /\ (forall i, (i <= n)%nat -> snd (zp i) <= snd (zp (S u))) /\ snd (zp u) < snd (zp (S u)) /\
    (forall t, (t < d)%nat -> snd (zp ((S u + t) mod n)%nat) = snd (zp (S u))) /\ snd (zp ((S u + d) mod n)%nat) < snd (zp (S u)) /\
    is_ccw_seq s = Ok (Some (if (fst (zp (S u)) =? fst (zp ((S u + d - 1) mod n)%nat)) then 0 <? turn2 (zp u) (zp (S u)) (zp ((S u + d) mod n)%nat)
                             else fst (zp ((S u + d - 1) mod n)%nat) <? fst (zp (S u)))).
Proof.
  intros He G W Ln N3 zp Cl. apply (cap_result_gen e); try assumption.
  - intros i Hi. now apply (bf_nth e zs (scoords s) n).
  - apply (top_right_grid e); try assumption. lia.
Qed.
