(** Rounding errors of areas and lengths. *)
From Coq Require Import ZArith Bool List Reals Lia Lra Psatz.
From Flocq Require Import Core IEEE754.BinarySingleNaN.
From Verif Require Import Base F64 F64Facts F64Err Coordinate_model CoordArrays_model CoordSeq_model
  Distance_float Measure_model Measure_spec Measure_proofs MeasureErr_spec.
Import ListNotations.
Local Open Scope R_scope.

(** ** Length *)
Lemma RN_small' r k : (-1074 <= k < 1024)%Z -> Rabs r <= bp k -> Rabs (RN r) < bp 1024.
Proof. exact (NumLink.RN_small r k). Qed.
Lemma bp52 : bp (-52) = 2 * u53.
Proof. change (-52)%Z with (-53 + 1)%Z. apply bp_S. Qed.

Lemma sq_near u a b : 0 <= u <= 1 -> Rabs (b - a) <= u * Rabs a ->
  (1 - u) * (1 - u) * (a * a) <= b * b <= (1 + u) * (1 + u) * (a * a).
Proof.
  intros U H.
  assert (A : (1 - u) * Rabs a <= Rabs b <= (1 + u) * Rabs a).
  { pose proof (Rabs_triang_inv b a) as T1. pose proof (Rabs_triang_inv a b) as T2.
    rewrite (Rabs_minus_sym a b) in T2. lra. }
  change (a * a) with (Rsqr a). change (b * b) with (Rsqr b). rewrite (Rsqr_abs a), (Rsqr_abs b). unfold Rsqr. pose proof (Rabs_pos a). pose proof (Rabs_pos b).
  assert (0 <= (1 - u) * Rabs a) by nra. split; nra.
Qed.

Lemma hyp_near u a b a' b' : 0 <= u <= 1 -> Rabs (a' - a) <= u * Rabs a -> Rabs (b' - b) <= u * Rabs b ->
  (1 - u) * sqrt (a * a + b * b) <= sqrt (a' * a' + b' * b') <= (1 + u) * sqrt (a * a + b * b).
Proof.
  intros U Ha Hb. pose proof (sq_near u a a' U Ha) as [A1 A2]. pose proof (sq_near u b b' U Hb) as [B1 B2].
  assert (Q : forall c, 0 <= c -> c * sqrt (a * a + b * b) = sqrt (c * c * (a * a) + c * c * (b * b))).
  { intros c Hc. replace (c * c * (a * a) + c * c * (b * b)) with (c * c * (a * a + b * b)) by ring.
    rewrite sqrt_mult_alt by nra. rewrite sqrt_square by exact Hc. reflexivity. }
  rewrite (Q (1 - u)), (Q (1 + u)) by lra. split; apply sqrt_le_1_alt; lra.
Qed.

(** One step: its length is out by less than four units of 2^-53. *)
Lemma step_near hypot a b : hypot_accurate hypot -> pt_below 900 a -> pt_below 900 b ->
  plane a = plane b \/ bp (-900) <= euclid (plane a) (plane b) ->
  let h := hypot (fsub (cx b) (cx a)) (fsub (cy b) (cy a)) in
  fis_finite h = true /\ Rabs (R_of h - euclid (plane a) (plane b)) <= 4 * u53 * euclid (plane a) (plane b) /\
  0 <= euclid (plane a) (plane b) <= bp 902.
Proof.
  intros Hh (Ax & Ay) (Bx & By) St. cbv zeta.
  destruct (bf_sub 900 _ _ ltac:(lia) Bx Ax) as ([Fx _] & Ex).
  destruct (bf_sub 900 _ _ ltac:(lia) By Ay) as ([Fy _] & Ey).
  pose proof (RN_sub_err _ _ (format_R (cx b)) (format_R (cx a))) as Dx.
  pose proof (RN_sub_err _ _ (format_R (cy b)) (format_R (cy a))) as Dy.
  rewrite <- Ex in Dx. rewrite <- Ey in Dy.
  pose proof u53_pos as Up. pose proof u53_small as Us.
  pose proof (hyp_near u53 _ _ _ _ ltac:(lra) Dx Dy) as H.
  unfold euclid, plane in *. cbn [fst snd] in *.
  set (s := sqrt _) in *. set (s' := sqrt (R_of (fsub _ _) * _ + _)) in H.
  assert (S0 : 0 <= s) by apply sqrt_pos.
  assert (S2 : s <= bp 902).
  { unfold s. rewrite <- (sqrt_square (bp 902)) by apply bpow_ge_0. apply sqrt_le_1_alt.
    destruct Ax as [_ Ax], Ay as [_ Ay], Bx as [_ Bx], By as [_ By]. apply Rabs_le_inv in Ax, Ay, Bx, By.
    assert (Bp : bp 902 = 4 * bp 900) by (change 902%Z with (900 + 1 + 1)%Z; rewrite !bp_S; lra).
    rewrite Bp. pose proof (bpow_gt_0 radix2 900). nra. }
  destruct (Hh (fsub (cx b) (cx a)) (fsub (cy b) (cy a)) Fx Fy) as (Fh & Eh).
  { fold s'. destruct St as [St | St].
    - left. injection St as E1 E2.
      assert (Z : s = 0). { unfold s. rewrite E1, E2, !Rminus_eq_0. rewrite Rmult_0_r, Rplus_0_r. apply sqrt_0. }
      rewrite Z in H. lra.
    - right. assert (B1 : 2 * bp (-1000) <= bp (-900)) by (rewrite <- bp_S; apply bpow_le; lia).
      assert (B2 : 2 * bp 902 <= bp 1000) by (rewrite <- bp_S; apply bpow_le; lia).
      pose proof (bpow_gt_0 radix2 (-1000)). split; nra. }
  fold s' in Eh. rewrite bp52 in Eh. split; [exact Fh|]. split; [|lra].
  apply Rabs_le_inv in Eh. apply Rabs_le. nra.
Qed.

Lemma steps_above_tl k a l : steps_above k (a :: l) -> steps_above k l.
Proof. intros H l1 x y l2 E. apply (H (a :: l1) x y l2). now rewrite E. Qed.

Lemma path_length_nonneg l : 0 <= path_length l.
Proof.
  induction l as [|a l IH]; [cbn; lra|]. destruct l as [|b l]; [cbn; lra|].
  change (path_length (a :: b :: l)) with (euclid a b + path_length (b :: l)).
  pose proof (sqrt_pos ((fst b - fst a) * (fst b - fst a) + (snd b - snd a) * (snd b - snd a))). unfold euclid in *. lra.
Qed.

Lemma seg_sum_near hypot l : hypot_accurate hypot -> Forall (pt_below 900) l ->
  steps_above (-900) (map plane l) ->
  forall n acc A, (Z.of_nat (n + length l) <= 2 ^ 50)%Z -> fis_finite acc = true ->
    0 <= A <= INR n * bp 902 -> Rabs (R_of acc - A) <= (2 * INR n + 4) * u53 * A ->
    fis_finite (seg_sum hypot acc l) = true /\
    Rabs (R_of (seg_sum hypot acc l) - (A + path_length (map plane l))) <=
      (2 * INR (n + length l) + 4) * u53 * (A + path_length (map plane l)).
Proof.
  intros Hh. induction l as [|a l IH]; intros Fl St n acc A N Fa Ha Ea.
  - cbn [seg_sum map path_length length]. rewrite Nat.add_0_r, Rplus_0_r. auto.
  - destruct l as [|b l].
    + cbn [seg_sum map path_length length]. rewrite Rplus_0_r. split; [exact Fa|].
      rewrite plus_INR. cbn [INR]. eapply Rle_trans; [exact Ea|].
      apply Rmult_le_compat_r; [lra|]. apply Rmult_le_compat_r; [apply Rlt_le, u53_pos|]. lra.
    + inversion Fl as [|? ? Ba Fl']; subst. inversion Fl' as [|? ? Bb _]; subst.
      cbn [map] in St. pose proof (St [] (plane a) (plane b) (map plane l) eq_refl) as Sab.
      apply steps_above_tl in St.
      destruct (step_near hypot a b Hh Ba Bb Sab) as (Fh & Eh & Hs). cbv zeta in *.
      cbn [seg_sum]. change (path_length (map plane (a :: b :: l))) with (euclid (plane a) (plane b) + path_length (map plane (b :: l))).
      set (h := hypot _ _) in *. set (s := euclid (plane a) (plane b)) in *.
      pose proof u53_pos as Up.
      assert (In_ : INR n + 2 <= bp 50).
      { rewrite INR_IZR_INZ. change 2 with (IZR 2). rewrite <- plus_IZR. change (bp 50) with (IZR (2 ^ 50)). apply IZR_le.
        cbn [length] in N. lia. }
      assert (In0 : 0 <= INR n) by apply pos_INR.
      assert (Un : (2 * INR n + 4) * u53 <= / 4).
      { assert (E1 : bp 50 * u53 = / 8) by (rewrite <- bpow_plus; simpl; lra).
        pose proof (Rmult_le_compat_r u53 _ _ (Rlt_le _ _ Up) In_) as E2. lra. }
      set (E := (2 * INR n + 4) * u53) in *.
      assert (E4 : 4 * u53 <= E) by (unfold E; nra).
      assert (Sum : R_of acc + R_of h - (A + s) <= E * (A + s) /\ - (E * (A + s)) <= R_of acc + R_of h - (A + s)).
      { apply Rabs_le_inv in Ea, Eh. nra. }
      assert (Big : A + s <= bp 952).
      { assert (E1 : bp 50 * bp 902 = bp 952) by now rewrite <- bpow_plus. pose proof (bpow_gt_0 radix2 902). nra. }
      destruct (fadd_R acc h Fa Fh) as (Ff & Ef).
      { apply (RN_small' _ 1000); [lia|]. assert (2 * bp 952 <= bp 1000) by (rewrite <- bp_S; apply bpow_le; lia).
        apply Rabs_le. nra. }
      pose proof (RN_sum_err _ _ (format_R acc) (format_R h)) as Er. rewrite <- Ef in Er.
      replace (A + (s + path_length (map plane (b :: l)))) with ((A + s) + path_length (map plane (b :: l))) by ring.
      replace (n + length (a :: b :: l))%nat with (S n + length (b :: l))%nat by (cbn; lia).
      apply IH; try assumption.
      * cbn [length] in *. lia.
      * rewrite S_INR. nra.
      * rewrite S_INR. replace ((2 * (INR n + 1) + 4) * u53) with (E + 2 * u53) by (unfold E; ring).
        assert (Sb : Rabs (R_of acc + R_of h) <= (1 + E) * (A + s)) by (apply Rabs_le; lra).
        assert (Er' : Rabs (R_of (fadd acc h) - (R_of acc + R_of h)) <= 2 * u53 * (A + s)).
        { eapply Rle_trans; [exact Er|]. assert (P : (1 + E) * (A + s) <= 2 * (A + s)) by (apply Rmult_le_compat_r; lra).
          pose proof (Rmult_le_compat_l u53 _ _ (Rlt_le _ _ Up) (Rle_trans _ _ _ Sb P)) as P'. lra. }
        rewrite Rmult_plus_distr_r. apply Rabs_le_inv in Er'. apply Rabs_le. lra.
Qed.

(** ** Area *)
(** The sum the code forms, for the chain from its second point on; and the
    sum of the sizes of its terms. *)
Fixpoint rshoe (x0 : R) (l : list (R * R)) : R :=
  match l with
  | a :: ((b :: c :: _) as t) => (fst b - x0) * (snd a - snd c) + rshoe x0 t
  | _ => 0
  end.
Fixpoint ashoe (x0 : R) (l : list (R * R)) : R :=
  match l with
  | a :: ((b :: c :: _) as t) => Rabs ((fst b - x0) * (snd a - snd c)) + ashoe x0 t
  | _ => 0
  end.
Lemma rshoe_trapezoids x0 l : forall a b d,
  rtrapezoids (a :: b :: l) =
    rshoe x0 (a :: b :: l)
    + (fst (last (a :: b :: l) d) - x0) * (snd (last (a :: b :: l) d) + snd (last (removelast (a :: b :: l)) d))
    - (fst a - x0) * (snd a + snd b).
Proof.
  induction l as [|c l IH]; intros [xa ya] [xb yb] d.
  - cbn. ring.
  - specialize (IH (xb, yb) c d).
    change (rtrapezoids ((xa, ya) :: (xb, yb) :: c :: l)) with
      ((xb - xa) * (ya + yb) + rtrapezoids ((xb, yb) :: c :: l)).
    rewrite IH. clear IH.
    change (rshoe x0 ((xa, ya) :: (xb, yb) :: c :: l)) with
      ((xb - x0) * (ya - snd c) + rshoe x0 ((xb, yb) :: c :: l)).
    change (last ((xa, ya) :: (xb, yb) :: c :: l) d) with (last ((xb, yb) :: c :: l) d).
    change (last (removelast ((xa, ya) :: (xb, yb) :: c :: l)) d) with (last (removelast ((xb, yb) :: c :: l)) d).
    cbn [fst snd]. ring.
Qed.
Lemma rshoe_closed l : closed_chain l -> rshoe (fst (hd (0, 0) l)) l = rtrapezoids l.
Proof.
  intros (a & m & ->). cbn [hd].
  destruct m as [|b m]; cbn [app].
  - rewrite (rshoe_trapezoids (fst a) [] a a a). cbn. ring.
  - rewrite (rshoe_trapezoids (fst a) (m ++ [a]) a b a).
    replace (last (a :: b :: m ++ [a]) a) with a.
    2: { change (a :: b :: m ++ [a]) with ((a :: b :: m) ++ [a]). now rewrite last_last. }
    ring.
Qed.
Lemma ashoe_nonneg x0 l : 0 <= ashoe x0 l.
Proof.
  induction l as [|a l IH]; [cbn; lra|]. destruct l as [|b l]; [cbn; lra|]. destruct l as [|c l]; [cbn; lra|].
  change (ashoe x0 (a :: b :: c :: l)) with (Rabs ((fst b - x0) * (snd a - snd c)) + ashoe x0 (b :: c :: l)).
  pose proof (Rabs_pos ((fst b - x0) * (snd a - snd c))). lra.
Qed.
Notation eta := (bp (-1075)).

(** One term of the sum. *)
Lemma term_near x0 a b c : bf 480 x0 -> pt_below 480 a -> pt_below 480 b -> pt_below 480 c ->
  let t := fmul (fsub (cx b) x0) (fsub (cy a) (cy c)) in
  let T := (R_of (cx b) - R_of x0) * (R_of (cy a) - R_of (cy c)) in
  fis_finite t = true /\ Rabs (R_of t - T) <= 4 * u53 * Rabs T + eta /\ Rabs T <= bp 962.
Proof.
  intros B0 (_ & Ay) (Bx & _) (_ & Cy). cbv zeta.
  destruct (bf_sub 480 _ _ ltac:(lia) Bx B0) as (Dx & Ex).
  destruct (bf_sub 480 _ _ ltac:(lia) Ay Cy) as (Dy & Ey).
  destruct (bf_mul 481 481 _ _ ltac:(lia) Dx Dy) as ((Ft & _) & Et).
  pose proof (RN_sub_err _ _ (format_R (cx b)) (format_R x0)) as Nx.
  pose proof (RN_sub_err _ _ (format_R (cy a)) (format_R (cy c))) as Ny.
  rewrite <- Ex in Nx. rewrite <- Ey in Ny.
  pose proof (RN_err (R_of (fsub (cx b) x0) * R_of (fsub (cy a) (cy c)))) as Nt.
  change (480 + 1)%Z with 481%Z in *. rewrite <- Et in Nt.
  assert (TX : Rabs (R_of (cx b) - R_of x0) <= bp 481).
  { change 481%Z with (480 + 1)%Z. rewrite bp_S. destruct B0 as [_ B0], Bx as [_ Bx].
    apply Rabs_le_inv in B0, Bx. apply Rabs_le. lra. }
  assert (TD : Rabs (R_of (cy a) - R_of (cy c)) <= bp 481).
  { change 481%Z with (480 + 1)%Z. rewrite bp_S. destruct Ay as [_ Ay], Cy as [_ Cy].
    apply Rabs_le_inv in Ay, Cy. apply Rabs_le. lra. }
  set (X := R_of (cx b) - R_of x0) in *. set (Y := R_of (cy a) - R_of (cy c)) in *.
  set (x := R_of (fsub (cx b) x0)) in *. set (y := R_of (fsub (cy a) (cy c))) in *.
  split; [exact Ft|]. split.
  2: { rewrite Rabs_mult. replace (bp 962) with (bp 481 * bp 481) by now rewrite <- bpow_plus.
       apply Rmult_le_compat; try apply Rabs_pos; assumption. }
  pose proof u53_pos as Up. pose proof u53_small as Us.
  rewrite (Rabs_mult X Y). rewrite Rabs_mult in Nt.
  assert (Ax : Rabs x <= (1 + u53) * Rabs X) by (pose proof (Rabs_triang_inv x X); lra).
  assert (Ay' : Rabs y <= (1 + u53) * Rabs Y) by (pose proof (Rabs_triang_inv y Y); lra).
  pose proof (Rabs_pos X) as PX. pose proof (Rabs_pos Y) as PY. pose proof (Rabs_pos x) as Px. pose proof (Rabs_pos y) as Py.
  assert (Axy : Rabs x * Rabs y <= ((1 + u53) * (1 + u53)) * (Rabs X * Rabs Y)).
  { replace (((1 + u53) * (1 + u53)) * (Rabs X * Rabs Y)) with (((1 + u53) * Rabs X) * ((1 + u53) * Rabs Y)) by ring.
    apply Rmult_le_compat; assumption. }
  assert (Dxy : Rabs (x * y - X * Y) <= (u53 * (1 + u53) + u53) * (Rabs X * Rabs Y)).
  { replace (x * y - X * Y) with ((x - X) * y + X * (y - Y)) by ring.
    eapply Rle_trans; [apply Rabs_triang|]. rewrite !Rabs_mult.
    assert (Rabs (x - X) * Rabs y <= (u53 * Rabs X) * ((1 + u53) * Rabs Y)) by (apply Rmult_le_compat; try apply Rabs_pos; assumption).
    assert (Rabs X * Rabs (y - Y) <= Rabs X * (u53 * Rabs Y)) by (apply Rmult_le_compat_l; assumption). lra. }
  assert (P0 : 0 <= Rabs X * Rabs Y) by now apply Rmult_le_pos.
  set (Q := Rabs X * Rabs Y) in *.
  replace (R_of (fmul (fsub (cx b) x0) (fsub (cy a) (cy c))) - X * Y)
    with ((R_of (fmul (fsub (cx b) x0) (fsub (cy a) (cy c))) - x * y) + (x * y - X * Y)) by ring.
  eapply Rle_trans; [apply Rabs_triang|].
  assert (u53 * (Rabs x * Rabs y) <= u53 * ((1 + u53) * (1 + u53) * Q)) by (apply Rmult_le_compat_l; lra).
  assert (u53 * ((1 + u53) * (1 + u53)) + (u53 * (1 + u53) + u53) <= 4 * u53) by nra.
  assert ((u53 * ((1 + u53) * (1 + u53)) + (u53 * (1 + u53) + u53)) * Q <= 4 * u53 * Q) by now apply Rmult_le_compat_r.
  lra.
Qed.

Lemma area_near x0 cs : bf 480 x0 -> Forall (pt_below 480) cs ->
  forall pre n acc A B, (Z.of_nat (n + length cs) <= 2 ^ 50)%Z -> fis_finite acc = true ->
    Rabs A <= B <= INR n * bp 962 -> Rabs (R_of acc - A) <= (2 * INR n + 4) * u53 * B + 2 * INR n * eta ->
    exists r, forN (length cs - 2) (length pre + 1)%nat acc (area_body (pre ++ cs) x0) = Ok r /\
      fis_finite r = true /\
      Rabs (R_of r - (A + rshoe (R_of x0) (map plane cs))) <=
        (2 * INR (n + (length cs - 2)) + 4) * u53 * (B + ashoe (R_of x0) (map plane cs)) + 2 * INR (n + (length cs - 2)) * eta /\
      Rabs (A + rshoe (R_of x0) (map plane cs)) <= B + ashoe (R_of x0) (map plane cs) <= INR (n + (length cs - 2)) * bp 962.
Proof.
  intros B0. induction cs as [|a cs IH]; intros Fc pre n acc A B N Fa HA Ea.
  { exists acc. cbn [length Nat.sub forN map rshoe ashoe]. rewrite Nat.add_0_r, !Rplus_0_r. auto. }
  destruct cs as [|b cs].
  { exists acc. cbn [length Nat.sub forN map rshoe ashoe]. rewrite Nat.add_0_r, !Rplus_0_r. auto. }
  destruct cs as [|c cs].
  { exists acc. cbn [length Nat.sub forN map rshoe ashoe]. rewrite Nat.add_0_r, !Rplus_0_r. auto. }
  inversion Fc as [|? ? Pa Fc']; subst. inversion Fc' as [|? ? Pb Fc'']; subst.
  inversion Fc'' as [|? ? Pc _]; subst.
  destruct (term_near x0 a b c B0 Pa Pb Pc) as (Ft & Et & Bt). cbv zeta in *.
  replace (length (a :: b :: c :: cs) - 2)%nat with (S (length (b :: c :: cs) - 2)) by (cbn; lia).
  cbn [forN]. rewrite area_step. cbn [bind].
  change (rshoe (R_of x0) (map plane (a :: b :: c :: cs))) with
    ((R_of (cx b) - R_of x0) * (R_of (cy a) - R_of (cy c)) + rshoe (R_of x0) (map plane (b :: c :: cs))).
  change (ashoe (R_of x0) (map plane (a :: b :: c :: cs))) with
    (Rabs ((R_of (cx b) - R_of x0) * (R_of (cy a) - R_of (cy c))) + ashoe (R_of x0) (map plane (b :: c :: cs))).
  set (t := fmul _ _) in *. set (T := (R_of (cx b) - R_of x0) * _) in *.
  pose proof u53_pos as Up. pose proof (bpow_gt_0 radix2 (-1075)) as Ep.
  assert (In0 : 0 <= INR n) by apply pos_INR.
  assert (In_ : INR n + 2 <= bp 50).
  { rewrite INR_IZR_INZ. change 2 with (IZR 2). rewrite <- plus_IZR. change (bp 50) with (IZR (2 ^ 50)). apply IZR_le.
    cbn [length] in N. lia. }
  assert (Un : (2 * INR n + 4) * u53 <= / 4).
  { assert (E1 : bp 50 * u53 = / 8) by (rewrite <- bpow_plus; simpl; lra).
    pose proof (Rmult_le_compat_r u53 _ _ (Rlt_le _ _ Up) In_) as E2. lra. }
  set (E := (2 * INR n + 4) * u53) in *.
  assert (E4 : 4 * u53 <= E) by (unfold E; apply Rmult_le_compat_r; lra).
  pose proof (Rabs_pos T) as PT. pose proof (Rabs_pos A) as PA.
  assert (Sum : Rabs (R_of acc + R_of t - (A + T)) <= E * (B + Rabs T) + (2 * INR n + 1) * eta).
  { replace (R_of acc + R_of t - (A + T)) with ((R_of acc - A) + (R_of t - T)) by ring.
    eapply Rle_trans; [apply Rabs_triang|].
    pose proof (Rmult_le_compat_r _ _ _ PT E4). lra. }
  assert (AT : Rabs (A + T) <= B + Rabs T) by (pose proof (Rabs_triang A T); lra).
  assert (Sb : Rabs (R_of acc + R_of t) <= 2 * (B + Rabs T) + (2 * INR n + 1) * eta).
  { pose proof (Rabs_triang_inv (R_of acc + R_of t) (A + T)).
    assert (E * (B + Rabs T) <= 1 * (B + Rabs T)) by (apply Rmult_le_compat_r; lra). lra. }
  assert (Bn : B + Rabs T <= (INR n + 1) * bp 962) by lra.
  assert (Big : (INR n + 1) * bp 962 <= bp 1012).
  { replace (bp 1012) with (bp 50 * bp 962) by now rewrite <- bpow_plus. apply Rmult_le_compat_r; [apply bpow_ge_0|lra]. }
  assert (Ne : (2 * INR n + 1) * eta <= bp 0).
  { apply Rle_trans with (bp 51 * eta); [|rewrite <- bpow_plus; apply bpow_le; lia].
    apply Rmult_le_compat_r; [lra|]. change 51%Z with (50 + 1)%Z. rewrite bp_S. lra. }
  destruct (fadd_R acc t Fa Ft) as (Ff & Ef).
  { apply (RN_small' _ 1014); [lia|]. change 1014%Z with (1012 + 1 + 1)%Z. rewrite !bp_S.
    assert (bp 0 <= bp 1012) by (apply bpow_le; lia). lra. }
  pose proof (RN_sum_err _ _ (format_R acc) (format_R t)) as Er. rewrite <- Ef in Er.
  specialize (IH Fc' (pre ++ [a]) (S n) (fadd acc t) (A + T) (B + Rabs T)).
  destruct IH as (r & Er' & Fr & Rr & Br).
  + cbn [length] in *. lia.
  + exact Ff.
  + rewrite S_INR. split; [exact AT|exact Bn].
  + rewrite S_INR. replace ((2 * (INR n + 1) + 4) * u53) with (E + 2 * u53) by (unfold E; ring).
    replace (R_of (fadd acc t) - (A + T)) with ((R_of (fadd acc t) - (R_of acc + R_of t)) + (R_of acc + R_of t - (A + T))) by ring.
    eapply Rle_trans; [apply Rabs_triang|].
    pose proof (Rmult_le_compat_l u53 _ _ (Rlt_le _ _ Up) Sb) as Sb'.
    assert (u53 * ((2 * INR n + 1) * eta) <= 1 * eta).
    { rewrite <- Rmult_assoc. apply Rmult_le_compat_r; [lra|].
      replace (u53 * (2 * INR n + 1)) with (E - 3 * u53) by (unfold E; ring). lra. }
    lra.
  + exists r. split; [|split; [exact Fr|split]].
    * rewrite <- Er'. rewrite app_length. cbn [length app].
      rewrite <- app_assoc. cbn [app].
      replace (S (length pre + 1)) with (length pre + 1 + 1)%nat by lia. reflexivity.
    * replace (n + S (length (b :: c :: cs) - 2))%nat with (S n + (length (b :: c :: cs) - 2))%nat by lia.
      rewrite <- !Rplus_assoc. exact Rr.
    * replace (n + S (length (b :: c :: cs) - 2))%nat with (S n + (length (b :: c :: cs) - 2))%nat by lia.
      rewrite <- !Rplus_assoc. exact Br.
Qed.

(** The whole sum, halved. *)
Lemma signed_area_near cs : Forall (pt_below 480) cs -> (Z.of_nat (length cs) <= 2 ^ 50)%Z ->
  exists r, signed_area_vec cs = Ok r /\ fis_finite r = true /\
    Rabs (R_of r - rshoe (fst (hd (0, 0) (map plane cs))) (map plane cs) / 2) <=
      (INR (length cs) + 1) * u53 * ashoe (fst (hd (0, 0) (map plane cs))) (map plane cs) + INR (length cs) * eta.
Proof.
  intros Fc N. pose proof u53_pos as Up. pose proof u53_small as Us. pose proof (bpow_gt_0 radix2 (-1075)) as Ep.
  unfold signed_area_vec. destruct (Nat.ltb_spec (length cs) 3) as [Lt|Ge].
  - exists f0. split; [reflexivity|]. split; [reflexivity|].
    assert (E : forall x, rshoe x (map plane cs) = 0 /\ ashoe x (map plane cs) = 0).
    { intros x. destruct cs as [|a [|b [|c cs]]]; try (split; reflexivity). cbn in Lt. lia. }
    destruct (E (fst (hd (0, 0) (map plane cs)))) as [-> ->].
    change (R_of f0) with 0. rewrite Rmult_0_r. unfold Rdiv. rewrite Rmult_0_l, Rminus_eq_0, Rabs_R0, Rplus_0_l.
    apply Rmult_le_pos; [apply pos_INR|lra].
  - destruct cs as [|c0 cs]; [cbn in Ge; lia|].
    cbn [idx nth_error bind]. cbv zeta. cbn [hd].
    change (fst (hd (0, 0) (map plane (c0 :: cs)))) with (R_of (cx c0)).
    inversion Fc as [|? ? (P0 & P0') _]; subst.
    destruct (area_near (cx c0) (c0 :: cs) P0 Fc [] 0 f0 0 0) as (r & Er & Fr & Rr & (Br & Bs)).
    + cbn [Nat.add]. exact N.
    + reflexivity.
    + rewrite Rabs_R0. cbn [INR]. lra.
    + change (R_of f0) with 0. rewrite Rminus_eq_0, Rabs_R0. cbn [INR]. lra.
    + cbn [length Nat.add app] in Er.
      match goal with |- exists r0, bind ?f ?k0 = _ /\ _ =>
        change f with (forN (S (length cs) - 2) 1 f0 (area_body (c0 :: cs) (cx c0))) end.
      rewrite Er. cbn [bind]. eexists. split; [reflexivity|].
      rewrite !Rplus_0_l in Rr, Br, Bs. cbn [Nat.add] in Rr, Bs.
      set (A := rshoe _ _) in *. set (B := ashoe _ _) in *.
      assert (Nn : INR (length (c0 :: cs) - 2) = INR (length (c0 :: cs)) - 2).
      { rewrite minus_INR by lia. reflexivity. }
      rewrite Nn in Rr, Bs. set (n := INR (length (c0 :: cs))) in *.
      assert (n3 : 3 <= n). { unfold n. change 3 with (IZR 3). rewrite INR_IZR_INZ. apply IZR_le. lia. }
      assert (n50 : n <= bp 50). { unfold n. rewrite INR_IZR_INZ. change (bp 50) with (IZR (2 ^ 50)). apply IZR_le. lia. }
      assert (Un : n * u53 <= / 8).
      { replace (/ 8) with (bp 50 * u53) by (rewrite <- bpow_plus; simpl; lra). apply Rmult_le_compat_r; lra. }
      assert (PB : 0 <= B) by apply ashoe_nonneg.
      assert (Rs : Rabs (R_of r) <= 2 * B + 2 * n * eta).
      { pose proof (Rabs_triang_inv (R_of r) A).
        assert ((2 * (n - 2) + 4) * u53 * B <= 1 * B) by (apply Rmult_le_compat_r; lra). lra. }
      assert (R2 : R_of (fofZ 2) = 2).
      { pose proof (proj2 (grid_fofZ 2 ltac:(cbn; lia))) as R2. rewrite R2. cbn. lra. }
      assert (R2n : Rabs (R_of r / 2) = Rabs (R_of r) / 2).
      { unfold Rdiv. rewrite Rabs_mult, (Rabs_pos_eq (/ 2)) by lra. reflexivity. }
      destruct (fdiv_R r (fofZ 2) Fr) as (Fd & Ed).
      { rewrite R2. lra. }
      { rewrite R2. apply (RN_small' _ 1023); [lia|]. rewrite R2n.
        pose proof (Rlt_le _ _ (abs_B2R_lt_emax 53 1024 r)) as Hr. fold (R_of r) in Hr.
        change 1024%Z with (1023 + 1)%Z in Hr. rewrite bp_S in Hr. lra. }
      rewrite R2 in Ed. split; [exact Fd|].
      pose proof (RN_err (R_of r / 2)) as Ne. rewrite <- Ed, R2n in Ne.
      replace (R_of (fdiv r (fofZ 2)) - A / 2) with ((R_of (fdiv r (fofZ 2)) - R_of r / 2) + (R_of r - A) / 2) by field.
      eapply Rle_trans; [apply Rabs_triang|].
      replace (Rabs ((R_of r - A) / 2)) with (Rabs (R_of r - A) / 2).
      2: { unfold Rdiv. rewrite Rabs_mult, (Rabs_pos_eq (/ 2)) by lra. reflexivity. }
      assert (H1 : u53 * (Rabs (R_of r) / 2) <= u53 * (B + n * eta)) by (apply Rmult_le_compat_l; lra).
      assert (H2 : u53 * (n * eta) <= 1 * eta).
      { rewrite <- Rmult_assoc. apply Rmult_le_compat_r; lra. }
      lra.
Qed.

Lemma ashoe_box w h l : in_box w h l -> l <> [] -> ashoe (fst (hd (0, 0) l)) l <= INR (length l) * (w * h).
Proof.
  intros (x & y & H) Ne. destruct l as [|p0 l]; [easy|]. cbn [hd].
  inversion H as [|? ? H0 _]; subst.
  assert (WH : 0 <= w * h) by (apply Rmult_le_pos; lra).
  generalize (p0 :: l) H. clear l H Ne. intros l H. induction l as [|a l IH]; [cbn; lra|].
  inversion H as [|? ? Ha H']; subst. specialize (IH H').
  assert (Ln : INR (length (a :: l)) * (w * h) = w * h + INR (length l) * (w * h)).
  { change (length (a :: l)) with (S (length l)). rewrite S_INR. ring. }
  destruct l as [|b l]; [rewrite Ln; cbn in *; lra|]. destruct l as [|c l]; [rewrite Ln; cbn [ashoe] in *; lra|].
  change (ashoe (fst p0) (a :: b :: c :: l)) with (Rabs ((fst b - fst p0) * (snd a - snd c)) + ashoe (fst p0) (b :: c :: l)).
  rewrite Ln. inversion H' as [|? ? Hb H'']; subst. inversion H'' as [|? ? Hc _]; subst.
  apply Rplus_le_compat; [|exact IH]. rewrite Rabs_mult. apply Rmult_le_compat; try apply Rabs_pos; apply Rabs_le; lra.
Qed.
