(** The distances computed in doubles against those of exact arithmetic. *)
From Coq Require Import ZArith Reals Bool List Lia Lra Psatz.
From Flocq Require Import Core IEEE754.BinarySingleNaN.
From Verif Require Import Base F64 F64Facts F64Err Num NumLink Coordinate_model Distance_model Distance_spec Distance_proofs.
Import ListNotations.
Local Open Scope R_scope.

(** [hypot] with a relative error of at most one unit in the last place,
    away from the ends of the range of doubles. *)
Definition hypot_accurate (hypot : f64 -> f64 -> f64) : Prop :=
  forall x y, fis_finite x = true -> fis_finite y = true ->
    let h := sqrt (R_of x * R_of x + R_of y * R_of y) in
    h = 0 \/ bp (-1000) <= h <= bp 1000 ->
    fis_finite (hypot x y) = true /\ Rabs (R_of (hypot x y) - h) <= bp (-52) * h.

(** A point of doubles holding a real point on the grid of step [2^e]. *)
Definition ptx (e k : Z) (p : P2 f64) (P : pR) : Prop := ex e k (px p) (px P) /\ ex e k (py p) (py P).

Section Float.
Variable hypot : f64 -> f64 -> f64.
Hypothesis Hh : hypot_accurate hypot.
Variable e : Z.
Hypothesis He : (-400 <= e <= 400)%Z.
Notation F := (NF hypot).
Notation pe := (ptx e 24).

Lemma d_ex : forall x y a b, ex e 24 x a -> ex e 24 y b -> ex e 25 (fsub x y) (a - b).
Proof. intros. apply (ex_sub e 24); [lia | lia | assumption | assumption]. Qed.
Lemma m_ex : forall x y a b, ex e 25 x a -> ex e 25 y b -> ex (e + e) 50 (fmul x y) (a * b).
Proof. intros. apply (ex_mul e e 25 25); try lia; assumption. Qed.

Lemma dist_ap : forall p q P Q, pe p P -> pe q Q -> ap 4 (g_distance f64 F p q) (dist P Q).
Proof.
  intros p q P Q [Px Py] [Qx Qy]. unfold g_distance. cbn [NF nhyp nsub].
  pose proof (d_ex _ _ _ _ Px Qx) as Dx. pose proof (d_ex _ _ _ _ Py Qy) as Dy.
  pose proof (m_ex _ _ _ _ Dx Dx) as Mx. pose proof (m_ex _ _ _ _ Dy Dy) as My.
  pose proof (ex_add (e + e) 50 _ _ _ _ ltac:(lia) ltac:(lia) Mx My) as S.
  destruct (Hh _ _ (ex_fin _ _ _ _ Dx) (ex_fin _ _ _ _ Dy)) as [Fh Eh].
  - rewrite (ex_R _ _ _ _ Dx), (ex_R _ _ _ _ Dy).
    destruct S as (_ & _ & n & Hn & G). rewrite G.
    assert (0 <= IZR n * bp (e + e)) by (rewrite <- G; apply Rplus_le_le_0_compat; apply Rle_0_sqr).
    pose proof (bpow_gt_0 radix2 (e + e)) as Bp.
    destruct (Z.eq_dec n 0) as [-> | Zn]; [left; rewrite Rmult_0_l; apply sqrt_0 | right].
    assert (1 <= IZR n). { apply IZR_le. assert (N0 : 0 <= IZR n) by (apply (Rmult_le_reg_r (bp (e + e))); lra). apply le_IZR in N0. lia. }
    assert (IZR n <= bp 51) by (rewrite <- (IZR_Zpower radix2) by lia; apply IZR_le; change (radix_val radix2) with 2%Z; lia).
    split.
    + rewrite <- (sqrt_Rsqr (bp (-1000))) by apply bpow_ge_0. apply sqrt_le_1_alt. unfold Rsqr. rewrite <- bpow_plus.
      assert (bp (-1000 + -1000) <= bp (e + e)) by (apply bpow_le; lia). nra.
    + rewrite <- (sqrt_Rsqr (bp 1000)) by apply bpow_ge_0. apply sqrt_le_1_alt. unfold Rsqr. rewrite <- bpow_plus.
      apply Rle_trans with (bp 51 * bp (e + e)); [apply Rmult_le_compat_r; lra |]. rewrite <- bpow_plus. apply bpow_le. lia.
  - rewrite (ex_R _ _ _ _ Dx), (ex_R _ _ _ _ Dy) in Eh. split; [exact Fh |].
    change (dist P Q) with (sqrt ((px P - px Q) * (px P - px Q) + (py P - py Q) * (py P - py Q))).
    eapply Rle_trans; [exact Eh |]. rewrite Rabs_pos_eq by apply sqrt_pos.
    apply Rmult_le_compat_r; [apply sqrt_pos |]. change (-52)%Z with (-53 + 1)%Z. rewrite bp_S. pose proof u53_pos. lra.
Qed.

Lemma bp_split : forall k l, bp (k + l) = bp k * bp l.
Proof. intros. apply bpow_plus. Qed.

Lemma p2s_ap : forall p a b P A B, pe p P -> pe a A -> pe b B ->
  ap 4 (g_point_to_segment f64 F p a b) (p2sR P A B).
Proof.
  intros p a b P A B Hp Ha Hb. pose proof Hp as [Px Py]. pose proof Ha as [Ax Ay]. pose proof Hb as [Bx By_].
  unfold g_point_to_segment, g_len2, g_side.
  pose proof (dist_ap _ _ _ _ Hp Ha) as DA. pose proof (dist_ap _ _ _ _ Hp Hb) as DB. rewrite <- distR_eq in DA, DB.
  revert DA DB. set (fa := g_distance f64 F p a). set (fb := g_distance f64 F p b).
  set (ra := distR P A). set (rb := distR P B). clearbody fa fb ra rb. intros DA DB.
  cbn [NF NR neq nsub nmul nadd ndiv nle nabs nsqrt nhyp nofZ].
  rewrite (ex_eqb _ _ _ _ _ _ _ _ Ax Bx), (ex_eqb _ _ _ _ _ _ _ _ Ay By_).
  destruct (Req_bool (px A) (px B) && Req_bool (py A) (py B)) eqn:EQ; [exact DA |].
  pose proof (d_ex _ _ _ _ Bx Ax) as X1. pose proof (d_ex _ _ _ _ By_ Ay) as X2.
  pose proof (ex_add (e + e) 50 _ _ _ _ ltac:(lia) ltac:(lia) (m_ex _ _ _ _ X1 X1) (m_ex _ _ _ _ X2 X2)) as L.
  pose proof (d_ex _ _ _ _ Px Ax) as X3. pose proof (d_ex _ _ _ _ Py Ay) as X4.
  pose proof (ex_add (e + e) 50 _ _ _ _ ltac:(lia) ltac:(lia) (m_ex _ _ _ _ X3 X1) (m_ex _ _ _ _ X4 X2)) as RNm.
  pose proof (d_ex _ _ _ _ Ay Py) as X5. pose proof (d_ex _ _ _ _ Ax Px) as X6.
  pose proof (ex_sub (e + e) 50 _ _ _ _ ltac:(lia) ltac:(lia) (m_ex _ _ _ _ X5 X1) (m_ex _ _ _ _ X6 X2)) as SD.
  change (50 + 1)%Z with 51%Z in *.
  assert (LP : 0 < (px B - px A) * (px B - px A) + (py B - py A) * (py B - py A)).
  { apply len2_pos. intros [E1 E2]. rewrite E1, E2, !Req_bool_true in EQ by reflexivity. discriminate. }
  set (l := fadd (fmul (fsub (px b) (px a)) (fsub (px b) (px a))) (fmul (fsub (py b) (py a)) (fsub (py b) (py a)))) in *.
  set (Lr := (px B - px A) * (px B - px A) + (py B - py A) * (py B - py A)) in *.
  set (n := fadd (fmul (fsub (px p) (px a)) (fsub (px b) (px a))) (fmul (fsub (py p) (py a)) (fsub (py b) (py a)))) in *.
  set (Nr := (px P - px A) * (px B - px A) + (py P - py A) * (py B - py A)) in *.
  set (s := fsub (fmul (fsub (py a) (py p)) (fsub (px b) (px a))) (fmul (fsub (px a) (px p)) (fsub (py b) (py a)))) in *.
  set (Sr := (py A - py P) * (px B - px A) - (px A - px P) * (py B - py A)) in *.
  clearbody l Lr n Nr s Sr. clear X1 X2 X3 X4 X5 X6.
  change (fofZ 0) with f0. change (fofZ 1) with f1.
  destruct (quot_le0 (e + e) 51 51 _ _ _ _ ltac:(lia) ltac:(lia) RNm L ltac:(lra)) as [-> _].
  destruct (Rle_bool (Nr / Lr) 0); [exact DA |].
  destruct (quot_ge1 (e + e) 51 51 _ _ _ _ ltac:(lia) ltac:(lia) RNm L ltac:(lra)) as [-> _].
  destruct (Rle_bool 1 (Nr / Lr)); [exact DB |].
  pose proof (ex_div (e + e) 51 51 _ _ _ _ ltac:(lia) ltac:(lia) SD L ltac:(lra)) as Q1. apply ap_abs in Q1.
  destruct (ex_div_val (e + e) 51 51 _ _ _ _ ltac:(lia) ltac:(lia) SD L ltac:(lra)) as (_ & _ & Q2).
  assert (LR : bp (e + e) <= Lr <= bp (e + e + 51)).
  { destruct L as (_ & _ & m & Hm & G). pose proof (bpow_gt_0 radix2 (e + e)) as Bp. rewrite G in LP |- *.
    assert (0 < IZR m) by (apply (Rmult_lt_reg_r (bp (e + e))); lra). assert (0 < m)%Z by (apply lt_IZR; assumption). assert (1 <= IZR m) by (apply IZR_le; lia).
    assert (IZR m <= bp 51) by (rewrite <- (IZR_Zpower radix2) by lia; apply IZR_le; change (radix_val radix2) with 2%Z; lia).
    rewrite (bp_split (e + e) 51). clear - Bp H1 H2. set (Z := bp (e + e)) in *. clearbody Z. split; nra. }
  assert (Q3 : ap 1 (fsqrt l) (sqrt Lr)).
  { rewrite <- (ex_R _ _ _ _ L). apply ap_sqrt; [apply (ex_fin _ _ _ _ L) |]. rewrite (ex_R _ _ _ _ L).
    eapply Rle_trans; [| apply LR]. apply bpow_le. lia. }
  apply (ap_weak (1 + 1 + 2)); [lra |]. apply ap_mul; [lra | lra | exact Q1 | exact Q3 |].
  destruct Q2 as [-> | Q2]; [left; rewrite Rabs_R0; ring | right].
  rewrite Rabs_mult, Rabs_Rabsolu, (Rabs_pos_eq (sqrt Lr)) by apply sqrt_pos.
  assert (S1 : bp e <= sqrt Lr).
  { rewrite <- (sqrt_Rsqr (bp e)) by apply bpow_ge_0. apply sqrt_le_1_alt. unfold Rsqr. rewrite <- bpow_plus. apply LR. }
  assert (S2 : sqrt Lr <= bp (e + 26)).
  { rewrite <- (sqrt_Rsqr (bp (e + 26))) by apply bpow_ge_0. apply sqrt_le_1_alt. unfold Rsqr. rewrite <- bpow_plus.
    eapply Rle_trans; [apply LR | apply bpow_le; lia]. }
  pose proof (bpow_ge_0 radix2 (- (51))). pose proof (bpow_ge_0 radix2 e).
  split.
  - apply Rle_trans with (bp (- (51)) * bp e).
    + rewrite <- bpow_plus. apply bpow_le. lia.
    + apply Rmult_le_compat; lra.
  - apply Rle_trans with (bp 51 * bp (e + 26)).
    + apply Rmult_le_compat; [apply Rabs_pos | apply sqrt_pos | apply Q2 | exact S2].
    + rewrite <- bpow_plus. apply bpow_le. lia.
Qed.

(** The least of approximations approximates the least. *)
Lemma ap4_bounds : forall x r, 0 <= r -> ap 4 x r -> fis_finite x = true /\ (1 - 4 * u53) * r <= R_of x <= (1 + 4 * u53) * r.
Proof. intros x r H [Fx E]. rewrite (Rabs_pos_eq r H) in E. apply Rabs_le_inv in E. split; [exact Fx | lra]. Qed.
Lemma bounds_ap4 : forall x r, 0 <= r -> fis_finite x = true -> (1 - 4 * u53) * r <= R_of x <= (1 + 4 * u53) * r -> ap 4 x r.
Proof. intros x r H Fx E. split; [exact Fx |]. rewrite (Rabs_pos_eq r H). apply Rabs_le. lra. Qed.
Lemma min_ap : forall x y r q, 0 <= r -> 0 <= q -> ap 4 x r -> ap 4 y q ->
  ap 4 (if fltb y x then y else x) (if Rlt_bool q r then q else r) /\ 0 <= (if Rlt_bool q r then q else r).
Proof.
  intros x y r q Hr Hq A1 A2. destruct (ap4_bounds x r Hr A1) as [F1 B1]. destruct (ap4_bounds y q Hq A2) as [F2 B2].
  pose proof u53_pos. pose proof u53_small. rewrite fltb_R by assumption.
  split; [| destruct (Rlt_bool q r); assumption].
  assert (K1 : 0 < 1 - 4 * u53) by lra.
  destruct (Rlt_bool_spec (R_of y) (R_of x)); destruct (Rlt_bool_spec q r); try assumption; apply bounds_ap4; try assumption;
  assert (4 * u53 * q <= 4 * u53 * r \/ 4 * u53 * r <= 4 * u53 * q) by (destruct (Rle_dec q r); [left | right]; apply Rmult_le_compat_l; lra); split; try lra.
  all: try (assert ((1 - 4 * u53) * r <= (1 - 4 * u53) * q) by (apply Rmult_le_compat_l; lra); lra).
  all: try (assert ((1 - 4 * u53) * q <= (1 - 4 * u53) * r) by (apply Rmult_le_compat_l; lra); lra).
Qed.
Lemma min4_ap : forall x1 x2 x3 x4 r1 r2 r3 r4, 0 <= r1 -> 0 <= r2 -> 0 <= r3 -> 0 <= r4 ->
  ap 4 x1 r1 -> ap 4 x2 r2 -> ap 4 x3 r3 -> ap 4 x4 r4 ->
  ap 4 (g_min4 f64 F x1 x2 x3 x4) (g_min4 R NR r1 r2 r3 r4).
Proof.
  intros x1 x2 x3 x4 r1 r2 r3 r4 P1 P2 P3 P4 A1 A2 A3 A4. unfold g_min4. cbn [NF NR nlt].
  destruct (min_ap _ _ _ _ P1 P2 A1 A2) as [B Q].
  destruct (min_ap _ _ _ _ Q P3 B A3) as [B' Q'].
  apply (min_ap _ _ _ _ Q' P4 B' A4).
Qed.
Lemma p2s_nonneg : forall p a b, 0 <= p2sR p a b.
Proof. intros p a b. destruct (p2s_attained p a b) as (q & _ & ->). apply dist_pos. Qed.

Lemma equals_ex : forall a b A B, pe a A -> pe b B -> g_equals f64 F a b = g_equals R NR A B.
Proof.
  intros a b A B [Ax Ay] [Bx By_]. unfold g_equals. cbn [NF NR neq].
  rewrite (ex_eqb _ _ _ _ _ _ _ _ Ax Bx), (ex_eqb _ _ _ _ _ _ _ _ Ay By_). reflexivity.
Qed.
Lemma fmin_val : forall k x y a b, ex e k x a -> ex e k y b -> ex e k (fmin x y) (Rmin a b) /\ ex e k (fmax x y) (Rmax a b).
Proof.
  intros k x y a b X Y. assert (Nx : fis_nan x = false) by (pose proof (nn_finite _ (ex_fin _ _ _ _ X)); unfold nn in *; assumption).
  assert (Ny : fis_nan y = false) by (pose proof (nn_finite _ (ex_fin _ _ _ _ Y)); unfold nn in *; assumption).
  unfold fmin, fmax. rewrite Nx, Ny. unfold fgtb. rewrite ?(ex_ltb _ _ _ _ _ _ _ _ X Y), ?(ex_ltb _ _ _ _ _ _ _ _ Y X).
  unfold Rmin, Rmax. destruct (Rle_dec a b) as [L | L].
  - destruct (Rlt_bool_spec a b) as [L1 | L1]; destruct (Rlt_bool_spec b a) as [L2 | L2]; try lra; try tauto.
    assert (a = b) by lra. subst. tauto.
  - destruct (Rlt_bool_spec a b) as [L1 | L1]; destruct (Rlt_bool_spec b a) as [L2 | L2]; try lra; tauto.
Qed.
Lemma box_ex : forall a b c d A B C D, pe a A -> pe b B -> pe c C -> pe d D ->
  g_intersects_4 f64 F a b c d = g_intersects_4 R NR A B C D.
Proof.
  intros a b c d A B C D [Ax Ay] [Bx By_] [Cx Cy] [Dx Dy]. unfold g_intersects_4. cbn [NF NR nmin nmax nlt].
  destruct (fmin_val _ _ _ _ _ Cx Dx) as [Q1 Q2]. destruct (fmin_val _ _ _ _ _ Ax Bx) as [Q3 Q4].
  destruct (fmin_val _ _ _ _ _ Cy Dy) as [Q5 Q6]. destruct (fmin_val _ _ _ _ _ Ay By_) as [Q7 Q8].
  rewrite (ex_ltb _ _ _ _ _ _ _ _ Q2 Q3), (ex_ltb _ _ _ _ _ _ _ _ Q4 Q1), (ex_ltb _ _ _ _ _ _ _ _ Q6 Q7), (ex_ltb _ _ _ _ _ _ _ _ Q8 Q5).
  reflexivity.
Qed.

Lemma s2s_ap : forall a b c d A B C D, pe a A -> pe b B -> pe c C -> pe d D ->
  ap 4 (g_segment_to_segment f64 F a b c d) (s2sR A B C D).
Proof.
  intros a b c d A B C D Ha Hb Hc Hd. unfold g_segment_to_segment.
  rewrite (equals_ex _ _ _ _ Ha Hb). destruct (g_equals R NR A B); [apply p2s_ap; assumption |].
  rewrite (equals_ex _ _ _ _ Hc Hd). destruct (g_equals R NR C D); [apply p2s_ap; assumption |].
  rewrite (box_ex _ _ _ _ _ _ _ _ Ha Hb Hc Hd).
  assert (M : ap 4 (g_min4 f64 F (g_point_to_segment f64 F a c d) (g_point_to_segment f64 F b c d) (g_point_to_segment f64 F c a b) (g_point_to_segment f64 F d a b))
                   (g_min4 R NR (p2sR A C D) (p2sR B C D) (p2sR C A B) (p2sR D A B)))
    by (apply min4_ap; try apply p2s_nonneg; apply p2s_ap; assumption).
  destruct (g_intersects_4 R NR A B C D); cbn [negb]; [| exact M].
  revert M. set (mf := g_min4 f64 F _ _ _ _). set (mr := g_min4 R NR _ _ _ _). clearbody mf mr. intros M.
  cbn [NF NR neq nsub nmul nadd ndiv nlt nofZ]. change (fofZ 0) with f0. change (fofZ 1) with f1.
  destruct Ha as [Ax Ay]. destruct Hb as [Bx By_]. destruct Hc as [Cx Cy]. destruct Hd as [Dx Dy].
  pose proof (d_ex _ _ _ _ Bx Ax) as U1. pose proof (d_ex _ _ _ _ By_ Ay) as U2.
  pose proof (d_ex _ _ _ _ Dx Cx) as V1. pose proof (d_ex _ _ _ _ Dy Cy) as V2.
  pose proof (d_ex _ _ _ _ Ax Cx) as W1. pose proof (d_ex _ _ _ _ Ay Cy) as W2.
  pose proof (ex_sub (e + e) 50 _ _ _ _ ltac:(lia) ltac:(lia) (m_ex _ _ _ _ U1 V2) (m_ex _ _ _ _ U2 V1)) as DEN.
  pose proof (ex_sub (e + e) 50 _ _ _ _ ltac:(lia) ltac:(lia) (m_ex _ _ _ _ W2 V1) (m_ex _ _ _ _ W1 V2)) as RNm.
  pose proof (ex_sub (e + e) 50 _ _ _ _ ltac:(lia) ltac:(lia) (m_ex _ _ _ _ W2 U1) (m_ex _ _ _ _ W1 U2)) as SNm.
  change (50 + 1)%Z with 51%Z in *.
  rewrite (ex_eqb _ _ _ _ _ _ _ _ DEN (ex_0 0 0 ltac:(lia))).
  match type of DEN with ex _ _ ?f ?r => set (df := f) in *; set (dr := r) in * end.
  match type of RNm with ex _ _ ?f ?r => set (rf := f) in *; set (rr := r) in * end.
  match type of SNm with ex _ _ ?f ?r => set (sf := f) in *; set (sr := r) in * end.
  destruct (Req_bool_spec dr 0) as [Z | NZ]; [exact M |].
  destruct (quot_le0 (e + e) 51 51 _ _ _ _ ltac:(lia) ltac:(lia) RNm DEN NZ) as [_ ->].
  destruct (quot_ge1 (e + e) 51 51 _ _ _ _ ltac:(lia) ltac:(lia) RNm DEN NZ) as [_ ->].
  destruct (quot_le0 (e + e) 51 51 _ _ _ _ ltac:(lia) ltac:(lia) SNm DEN NZ) as [_ ->].
  destruct (quot_ge1 (e + e) 51 51 _ _ _ _ ltac:(lia) ltac:(lia) SNm DEN NZ) as [_ ->].
  match goal with |- context [if ?t then mf else _] => destruct t end; [exact M |].
  apply (ap_ex 4 0 0); [lra | apply ex_0; lia].
Qed.

Lemma string_ap : forall p P, pe p P -> forall l L, Forall2 pe l L -> forall a A m mR, pe a A -> 0 <= mR -> ap 4 m mR ->
  ap 4 (g_string_loop f64 F p a l m) (g_string_loop R NR P A L mR).
Proof.
  intros p P Hp l L HL. induction HL as [| b B t T Hb HT IH]; intros a A m mR Ha Hm Am; [exact Am |].
  cbn [g_string_loop]. cbn [NF NR nlt].
  destruct (min_ap _ _ _ _ Hm (p2s_nonneg P A B) Am (p2s_ap _ _ _ _ _ _ Hp Ha Hb)) as [M1 M2].
  apply IH; assumption.
Qed.
End Float.
