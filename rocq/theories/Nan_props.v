(** C86: ordinates that are NaN in the orientation test and the point in ring
    test. *)
From Coq Require Import ZArith Bool List Lia.
From Flocq Require Import Core IEEE754.BinarySingleNaN.
From Verif Require Import Base F64 F64Facts Coordinate_model Envelope_model CoordSeq_model DD_model Orientation_model Orientation_props
  PointLocation_model PointLocation_spec PointLocation_proofs PointLocation_props Counter_props Triangle_model LineIntersector_model Refuse_props DDZero_props.
Import ListNotations.
Open Scope Z_scope.

Definition is_NaN (x : f64) : Prop := x = fnan.
Lemma gt_nan_r x : fgtb x fnan = false. Proof. now destruct x as [[]|[]| |[] m e H]. Qed.
Lemma gt_nan_l x : fgtb fnan x = false. Proof. now destruct x as [[]|[]| |[] m e H]. Qed.
Lemma lt_nan_r x : fltb x fnan = false. Proof. now destruct x as [[]|[]| |[] m e H]. Qed.
Lemma lt_nan_l x : fltb fnan x = false. Proof. now destruct x as [[]|[]| |[] m e H]. Qed.
Lemma le_nan_r x : fleb x fnan = false. Proof. now destruct x as [[]|[]| |[] m e H]. Qed.
Lemma le_nan_l x : fleb fnan x = false. Proof. now destruct x as [[]|[]| |[] m e H]. Qed.
Lemma ge_nan_r x : fgeb x fnan = false. Proof. now destruct x as [[]|[]| |[] m e H]. Qed.
Lemma ge_nan_l x : fgeb fnan x = false. Proof. now destruct x as [[]|[]| |[] m e H]. Qed.
Lemma eq_nan_r x : feqb x fnan = false. Proof. now destruct x as [[]|[]| |[] m e H]. Qed.
Lemma eq_nan_l x : feqb fnan x = false. Proof. now destruct x as [[]|[]| |[] m e H]. Qed.
Ltac nanc := repeat rewrite ?gt_nan_r, ?gt_nan_l, ?lt_nan_r, ?lt_nan_l, ?le_nan_r, ?le_nan_l, ?ge_nan_r, ?ge_nan_l, ?eq_nan_r, ?eq_nan_l.

(** ** Orientation *)
Lemma neg_nan : fneg fnan = fnan. Proof. reflexivity. Qed.
Lemma dd_diff_nan x y : x = fnan \/ y = fnan -> dd_add_f64 (dd_of x) (fneg y) = mkDD fnan fnan.
Proof. intros [-> | ->]; unfold dd_add_f64; cbn [dd_of hi lo]; cbv zeta; rewrite ?neg_nan; nans; reflexivity. Qed.
Lemma dd_product_nan x y : x = mkDD fnan fnan \/ y = mkDD fnan fnan -> dd_self_mul x y = mkDD fnan fnan.
Proof. intros [-> | ->]; unfold dd_self_mul, dd_mul_hi_lo; cbn [hi lo]; cbv zeta; nans; reflexivity. Qed.
Lemma dd_product_lo x y : hi (dd_self_mul x y) = fnan -> lo (dd_self_mul x y) = fnan.
Proof. unfold dd_self_mul, dd_mul_hi_lo. cbv zeta. cbn [hi lo]. intros ->. nans. reflexivity. Qed.
Lemma dd_minus_nan x y : (hi x = fnan -> lo x = fnan) -> x = mkDD fnan fnan \/ y = mkDD fnan fnan -> dd_signum (dd_self_sub x y) = 0.
Proof.
  intros L [-> | ->]; unfold dd_self_sub; [reflexivity|]. destruct (dd_is_nan x) eqn:N.
  - unfold dd_is_nan in N. assert (E : hi x = fnan) by (destruct (hi x); try discriminate N; reflexivity).
    unfold dd_signum. rewrite E, (L E). reflexivity.
  - unfold dd_add_hi_lo. cbn [hi lo]. rewrite neg_nan. cbv zeta. nans. reflexivity.
Qed.
(** With a NaN among the six ordinates the three points count as collinear. *)
Theorem C86_orientation : forall p1 p2 q, Exists is_NaN [cx p1; cy p1; cx p2; cy p2; cx q; cy q] -> orient p1 p2 q = 0.
Proof.
  intros p1 p2 q H. unfold orient, orientation_index_xy.
  assert (DD : orientation_dd (cx p1) (cy p1) (cx p2) (cy p2) (cx q) (cy q) = 0).
  { unfold orientation_dd. cbv zeta. apply dd_minus_nan; [apply dd_product_lo|].
    repeat (apply Exists_cons in H; destruct H as [H|H]); unfold is_NaN in *;
      try (left; apply dd_product_nan; left; apply dd_diff_nan; auto; fail); try (left; apply dd_product_nan; right; apply dd_diff_nan; auto; fail);
      try (right; apply dd_product_nan; left; apply dd_diff_nan; auto; fail); try (right; apply dd_product_nan; right; apply dd_diff_nan; auto; fail). inversion H. }
  assert (N : fsub (fmul (fsub (cx p1) (cx q)) (fsub (cy p2) (cy q))) (fmul (fsub (cy p1) (cy q)) (fsub (cx p2) (cx q))) = fnan).
  { repeat (apply Exists_cons in H; destruct H as [H|H]); unfold is_NaN in *; try (rewrite H; nans; reflexivity). inversion H. }
  unfold orientation_index_filter. cbv zeta. rewrite N. rewrite neg_nan. nanc. cbn [orb]. change (fsignum fnan) with 0. rewrite DD.
  repeat match goal with |- context [if fgtb ?a ?b then _ else _] => destruct (fgtb a b) | |- context [if fltb ?a ?b then _ else _] => destruct (fltb a b)
    | |- context [if fleb ?a ?b then _ else _] => destruct (fleb a b) | |- context [if fgeb ?a ?b then _ else _] => destruct (fgeb a b) end; reflexivity.
Qed.
Example C86_orientation_example : orient (ipt 0 0) (ipt 4 0) (new_xy fnan f1) = 0 /\ orient (ipt 0 0) (ipt 4 0) (new_xy f1 f1) = 1 /\
  Exists is_NaN [cx (ipt 0 0); cy (ipt 0 0); cx (ipt 4 0); cy (ipt 4 0); cx (new_xy fnan f1); cy (new_xy fnan f1)].
Proof. split; [vm_compute; reflexivity|]. split; [vm_compute; reflexivity|]. do 4 apply Exists_cons_tl. apply Exists_cons_hd. reflexivity. Qed.

(** ** Location *)
(** The segment passes the height [y]: one end above, the other not. *)
Definition passes (y : f64) (s : Coordinate * Coordinate) : Prop :=
  (fgtb (cy (fst s)) y = true /\ fleb (cy (snd s)) y = true) \/ (fgtb (cy (snd s)) y = true /\ fleb (cy (fst s)) y = true).
Lemma eq_not_gt x y : feqb x y = true -> fgtb x y = false.
Proof. intros E. destruct (feqb_nn _ _ E) as (X & Y). rewrite feqb_rank in E by assumption. rewrite fgtb_rank by assumption. apply Z.eqb_eq in E. apply Z.ltb_ge. lia. Qed.
Lemma effect_nan_y p s : cy p = fnan -> adds p s = 0 /\ finds p s = false.
Proof.
  intros E. unfold adds, finds, count_segment. cbn [counter_new cpt ccount con]. rewrite E. nanc. rewrite !andb_false_r. cbn [andb orb].
  destruct (_ && _); split; reflexivity.
Qed.
Lemma effect_nan_x p s : cx p = fnan -> adds p s = 0 /\ (finds p s = true <-> passes (cy p) s).
Proof.
  intros E. unfold adds, finds, count_segment. cbn [counter_new cpt ccount con].
  rewrite (C86_orientation (snd s) (fst s) p) by (do 4 apply Exists_cons_tl; apply Exists_cons_hd; exact E).
  rewrite E. nanc. cbn [andb orb Z.eqb]. unfold passes. destruct (feqb (cy (snd s)) (cy p) && feqb (cy (fst s)) (cy p)) eqn:Q.
  - apply andb_true_iff in Q. destruct Q as (Q1 & Q2).
    destruct (fgtb (cx (snd s)) (cx (fst s))); nanc; cbn [andb ccount con counter_new]; (split; [reflexivity|]); (split; [discriminate|]);
      intros [(G & _)|(G & _)]; [rewrite (eq_not_gt _ _ Q2) in G|rewrite (eq_not_gt _ _ Q1) in G|rewrite (eq_not_gt _ _ Q2) in G|rewrite (eq_not_gt _ _ Q1) in G]; discriminate G.
  - destruct (fgtb (cy (snd s)) (cy p) && fleb (cy (fst s)) (cy p)) eqn:A; cbn [orb ccount con].
    + split; [reflexivity|]. apply andb_true_iff in A. tauto.
    + destruct (fgtb (cy (fst s)) (cy p) && fleb (cy (snd s)) (cy p)) eqn:B; cbn [ccount con]; (split; [reflexivity|]).
      * apply andb_true_iff in B. tauto.
      * split; [discriminate|]. intros [H|H]; apply andb_true_iff in H; congruence.
Qed.
(** A point with NaN as y is outside every ring.  A point with NaN as x alone is
    on the boundary as soon as one segment passes its height, else outside; it
    is never inside. *)
Theorem C86_locate : forall p ring, Z.of_nat (length (segs ring)) <= i32_max ->
  (is_NaN (cy p) -> locate_vec p ring = Ok EXTERIOR) /\
  (is_NaN (cx p) -> (Exists (passes (cy p)) (segs ring) /\ locate_vec p ring = Ok BOUNDARY) \/
                    (~ Exists (passes (cy p)) (segs ring) /\ locate_vec p ring = Ok EXTERIOR)).
Proof.
  intros p ring L. rewrite locate_total by exact L. split; intros E; unfold is_NaN in E.
  - assert (T : total p (segs ring) = 0 /\ existsb (finds p) (segs ring) = false).
    { clear L. induction (segs ring) as [|s l IH]; [auto|]. destruct IH as (A & B). destruct (effect_nan_y p s E) as (C & D).
      cbn [total existsb]. rewrite A, B, C, D. auto. }
    destruct T as (-> & ->). reflexivity.
  - assert (T : total p (segs ring) = 0).
    { clear L. induction (segs ring) as [|s l IH]; [auto|]. cbn [total]. rewrite (proj1 (effect_nan_x p s E)), IH. reflexivity. }
    rewrite T. unfold get_location. cbn [con ccount]. destruct (existsb (finds p) (segs ring)) eqn:X.
    + left. split; [|reflexivity]. apply existsb_exists in X. destruct X as (s & I & F). apply Exists_exists. exists s. split; [exact I|]. now apply (effect_nan_x p s E).
    + right. split; [|reflexivity]. intros H. apply Exists_exists in H. destruct H as (s & I & P). apply (proj2 (effect_nan_x p s E)) in P.
      assert (existsb (finds p) (segs ring) = true) by (apply existsb_exists; eauto). congruence.
Qed.
(** So a point without a position can be reported on the boundary. *)
Theorem C86_nan_outside_refuted : ~ (forall p ring, Exists is_NaN [cx p; cy p] -> locate_vec p ring = Ok EXTERIOR).
Proof.
  intros H. specialize (H (new_xy fnan f1) [ipt 0 0; ipt 4 0; ipt 4 4; ipt 0 0] ltac:(apply Exists_cons_hd; reflexivity)).
  assert (B : locate_vec (new_xy fnan f1) [ipt 0 0; ipt 4 0; ipt 4 4; ipt 0 0] = Ok BOUNDARY) by (vm_compute; reflexivity). rewrite B in H. discriminate H.
Qed.
Example C86_locate_example : let ring := [ipt 0 0; ipt 4 0; ipt 4 4; ipt 0 0] in
  locate_vec (new_xy fnan f1) ring = Ok BOUNDARY /\ locate_vec (new_xy fnan (fofZ 9)) ring = Ok EXTERIOR /\ locate_vec (new_xy f1 fnan) ring = Ok EXTERIOR /\
  Exists (passes f1) (segs ring).
Proof. repeat (split; [vm_compute; reflexivity|]). apply Exists_cons_tl, Exists_cons_hd. right. split; vm_compute; reflexivity. Qed.
(** A point with a NaN ordinate is on no segment, whatever its ends. *)
Theorem C86_on_segment : forall p a b, Exists is_NaN [cx p; cy p] -> is_on_segment p a b = false.
Proof.
  intros p a b H. unfold is_on_segment, intersects_3. assert (N : cx p = fnan \/ cy p = fnan).
  { apply Exists_cons in H. destruct H as [H|H]; [now left|]. apply Exists_cons in H. destruct H as [H|H]; [now right|inversion H]. }
  destruct N as [-> | ->]; nanc; cbn [andb]; rewrite ?andb_false_r; reflexivity.
Qed.
(** The two tests disagree: the boundary of a ring is not the line of its points. *)
Theorem C86_boundary_refuted : exists p ring, locate_vec p ring = Ok BOUNDARY /\ is_on_line_vec p ring = Ok false.
Proof. exists (new_xy fnan f1), [ipt 0 0; ipt 4 0; ipt 4 4; ipt 0 0]. split; vm_compute; reflexivity. Qed.
(** A point with a NaN ordinate is in every triangle: it is on no outer side. *)
Theorem C86_triangle : forall a b c p, Exists is_NaN [cx p; cy p] -> tri_intersects a b c p = true.
Proof.
  intros a b c p H. assert (O : forall u v, orient u v p = 0) by (intros u v; apply C86_orientation; do 4 apply Exists_cons_tl; exact H).
  unfold tri_intersects. rewrite !O. destruct (tri_is_ccw a b c); reflexivity.
Qed.
Example C86_triangle_example : Exists is_NaN [cx (new_xy f1 fnan); cy (new_xy f1 fnan)] /\
  tri_intersects (ipt 0 0) (ipt 4 0) (ipt 0 4) (new_xy f1 fnan) = true /\ locate_vec (new_xy f1 fnan) [ipt 0 0; ipt 4 0; ipt 0 4; ipt 0 0] = Ok EXTERIOR.
Proof. split; [apply Exists_cons_tl, Exists_cons_hd; reflexivity|]. split; vm_compute; reflexivity. Qed.
(** Two segments with a NaN among their ordinates never cross properly. *)
Theorem C86_not_proper : forall hypot s p1 p2 q1 q2, Exists is_NaN [cx p1; cy p1; cx p2; cy p2; cx q1; cy q1; cx q2; cy q2] ->
  li_proper (compute_intersection_4 hypot s p1 p2 q1 q2) = false.
Proof.
  intros hypot s p1 p2 q1 q2 H.
  assert (O : orient p1 p2 q1 = 0 \/ orient p1 p2 q2 = 0 \/ orient q1 q2 p1 = 0 \/ orient q1 q2 p2 = 0).
  { repeat (apply Exists_cons in H; destruct H as [H|H]); try (inversion H; fail); unfold is_NaN in H.
    1-6: left; apply C86_orientation; apply Exists_exists; eexists; split; [|exact H]; cbn [In]; tauto.
    1-2: right; left; apply C86_orientation; apply Exists_exists; eexists; split; [|exact H]; cbn [In]; tauto. }
  assert (C : forall s, li_proper s = false -> li_proper (fst (compute_collinear_intersection s p1 p2 q1 q2)) = false).
  { intros t T. unfold compute_collinear_intersection. repeat match goal with |- context [if ?b then (_, _) else _] => destruct b end; exact T. }
  unfold compute_intersection_4, compute_intersect.
  destruct (negb _); [reflexivity|]. destruct (same_side _ _); [reflexivity|]. destruct (same_side _ _); [reflexivity|].
  destruct (_ && _ && _ && _).
  { pose proof (C (li_set_proper (li_set_lines s p1 p2 q1 q2) false) eq_refl) as K. destruct (compute_collinear_intersection _ _ _ _ _) as [t r]. exact K. }
  assert (B : (orient p1 p2 q1 =? 0) || (orient p1 p2 q2 =? 0) || (orient q1 q2 p1 =? 0) || (orient q1 q2 p2 =? 0) = true).
  { destruct O as [O|[O|[O|O]]]; rewrite O; cbn; rewrite ?orb_true_r; reflexivity. }
  rewrite B. destruct (touch_point _ _ _ _ _ _ _ _) as [p z]. reflexivity.
Qed.
Example C86_not_proper_example : let s := compute_intersection_4 (fun _ _ => f0) li_default (ipt 0 0) (ipt 4 4) (new_xy fnan f0) (ipt 4 0) in
  li_proper s = false /\ li_proper (compute_intersection_4 (fun _ _ => f0) li_default (ipt 0 0) (ipt 4 4) (ipt 0 4) (ipt 4 0)) = true.
Proof. split; vm_compute; reflexivity. Qed.
