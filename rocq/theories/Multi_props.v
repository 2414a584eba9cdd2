(** C66: copying and reversing multi-geometries (multi_point.rs,
    multi_line_string.rs, multi_polygon.rs); C76: points (point.rs);
    C77: multi-geometry accessors. *)
From Coq Require Import ZArith Bool List Reals Lia Lra.
From Flocq Require Import Core IEEE754.BinarySingleNaN.
From Verif Require Import Base F64 F64Facts Coordinate_model Coordinate_spec Coordinate_proofs Envelope_model Envelope_spec Envelope_proofs
  CoordArrays_model CoordArrays_spec CoordArrays_proofs CoordSeq_model CoordSeq_spec CoordSeq_generic CoordSeq_proofs CoordSeq_props
  PrecisionModel_model Measure_model Measure_spec Measure_props Matrix_model Matrix_props Geom_model Geom_proofs Line_props Polygon_proofs Polygon_props.
Import ListNotations.
Open Scope nat_scope.

(** The coordinates of a point: none or one. *)
Definition ppts (p : GPoint) : list Coordinate := scoords (pt_seq p).

(** ** C66 *)
Lemma fill_empty_panics {A B} (l : list A) (f : A -> res B) : l <> [] ->
  forN (length l) 0 [] (fun i out => a <- idx l i ;; b <- f a ;; upd out i b) = Panic.
Proof.
  destruct l as [|a l]; [easy|]. intros _. cbn [length forN]. cbn [idx nth_error bind]. destruct (f a); [|reflexivity]. cbn [bind].
  now rewrite upd_nil.
Qed.
(** Any non-empty MultiPoint or MultiPolygon panics when copied or reversed,
    and any non-empty MultiLineString when copied. *)
Theorem C66_point_panics : forall m, mp_points m <> [] -> mp_copy m = Panic /\ mp_reverse m = Panic.
Proof. intros m N. unfold mp_reverse, mp_copy. now rewrite fill_empty_panics. Qed.
Theorem C66_line_copy_panics : forall m, ml_lines m <> [] -> ml_copy m = Panic.
Proof. intros m N. unfold ml_copy. now rewrite fill_empty_panics. Qed.
Theorem C66_polygon_panics : forall m, mg_polys m <> [] -> mg_copy m = Panic /\ mg_reverse m = Panic.
Proof. intros m N. unfold mg_reverse, mg_copy. now rewrite !fill_empty_panics. Qed.
(** Reversing a MultiLineString drops every line but keeps the envelope. *)
Theorem C66_line_reverse_drops : forall m, exists r, ml_reverse m = Ok r /\ ml_lines r = [] /\ ml_env r = ml_env m.
Proof. intros m. unfold ml_reverse. cbn. destruct (ml_env m); eexists; (split; [reflexivity|]); cbn; now rewrite ?env_copy. Qed.
(** Empty ones are copied and reversed. *)
Theorem C66_empty : forall m l g, mp_points m = [] -> ml_lines l = [] -> mg_polys g = [] ->
  (exists r, mp_copy m = Ok r /\ mp_points r = []) /\ (exists r, mp_reverse m = Ok r /\ mp_points r = [] /\ mp_env r = mp_env m) /\
  (exists r, ml_copy l = Ok r /\ ml_lines r = []) /\
  (exists r, mg_copy g = Ok r /\ mg_polys r = []) /\ (exists r, mg_reverse g = Ok r /\ mg_polys r = [] /\ mg_env r = mg_env g).
Proof.
  intros m l g M L G. unfold mp_reverse, mp_copy, ml_copy, mg_copy, mg_reverse. rewrite M, L, G. cbn [length forN bind].
  destruct (mp_env m), (mg_env g); repeat match goal with |- _ /\ _ => split end; eexists; repeat split; cbn; now rewrite ?env_copy.
Qed.
(** So copies and reversals are in general not there. *)
Theorem C66_copy_refuted : ~ (forall m, exists r, mp_copy m = Ok r) /\ ~ (forall m, exists r, ml_copy m = Ok r) /\ ~ (forall m, exists r, mg_copy m = Ok r).
Proof.
  split; [|split]; intros H.
  - destruct (H (mp_new [pt_default] None)) as (r & E). rewrite (proj1 (C66_point_panics (mp_new [pt_default] None) ltac:(discriminate))) in E. discriminate.
  - destruct (H (ml_new [ln_new (seq_of [])] None)) as (r & E). rewrite C66_line_copy_panics in E by discriminate. discriminate.
  - destruct (H (mg_new [with_hole] None)) as (r & E). rewrite (proj1 (C66_polygon_panics (mg_new [with_hole] None) ltac:(discriminate))) in E. discriminate.
Qed.
Theorem C66_reverse_refuted : ~ (forall m, exists r, mp_reverse m = Ok r) /\ ~ (forall m, exists r, mg_reverse m = Ok r) /\
  ~ (forall m r, ml_reverse m = Ok r -> length (ml_lines r) = length (ml_lines m)).
Proof.
  split; [|split]; intros H.
  - destruct (H (mp_new [pt_default] None)) as (r & E). rewrite (proj2 (C66_point_panics (mp_new [pt_default] None) ltac:(discriminate))) in E. discriminate.
  - destruct (H (mg_new [with_hole] None)) as (r & E). rewrite (proj2 (C66_polygon_panics (mg_new [with_hole] None) ltac:(discriminate))) in E. discriminate.
  - destruct (C66_line_reverse_drops (ml_new [ln_new (seq_of [])] None)) as (r & E & N & _). specialize (H _ _ E). rewrite N in H. discriminate.
Qed.
Example C66_example : mp_points (mp_new [pt_new (xy 1 2) None; pt_default] None) <> [] /\
  mp_copy (mp_new [pt_new (xy 1 2) None; pt_default] None) = Panic /\
  ml_lines (ml_new [mkLn (seq_of [xy 0 0; xy 1 1]) None] None) <> [].
Proof. split; [discriminate|]. split; [|discriminate]. now apply C66_point_panics. Qed.

(** ** C76: points *)
(** A point holds the given coordinate; the default point holds none; a
    sequence of more than one coordinate is refused. *)
Theorem C76_new : forall c pm, let p := pt_new c pm in
  ppts p = [c] /\ pt_coordinate p = Ok (Some c) /\ pt_coordinates p = Ok [c] /\ pt_x p = Ok (Some (cx c)) /\ pt_y p = Ok (Some (cy c)) /\
  pt_is_empty p = false /\ pt_num_points p = 1 /\
  exists q, create_point_from_coordinate c = Ok q /\ ppts q = [c].
Proof.
  intros c pm p. unfold p, pt_new. rewrite from_coordinate_id. repeat (split; [reflexivity|]). rewrite create_point_id. now eexists.
Qed.
Theorem C76_default : pt_coordinate pt_default = Ok None /\ pt_coordinates pt_default = Ok [] /\ pt_x pt_default = Ok None /\ pt_y pt_default = Ok None /\
  pt_is_empty pt_default = true /\ pt_num_points pt_default = 0 /\ (exists p, create_point = Ok p /\ ppts p = []).
Proof. repeat (split; [reflexivity|]). unfold create_point. rewrite pt_of_seq_id; [now eexists|cbn; lia]. Qed.
Theorem C76_of_sequence : forall s,
  (length (scoords s) <= 1 -> exists p, pt_of_seq s = Ok p /\ ppts p = scoords s) /\ (1 < length (scoords s) -> pt_of_seq s = Panic).
Proof.
  intros s. split; intros H.
  - rewrite pt_of_seq_id by exact H. eexists. split; reflexivity.
  - now apply pt_of_seq_panics.
Qed.
(** Points reachable through the API. *)
Inductive pt_made : GPoint -> Prop :=
| tmade_default : pt_made pt_default
| tmade_new c pm : pt_made (pt_new c pm)
| tmade_seq s p : pt_of_seq s = Ok p -> pt_made p
| tmade_copy p q : pt_made p -> pt_copy p = Ok q -> pt_made q
| tmade_reverse p q : pt_made p -> pt_reverse p = Ok q -> pt_made q
| tmade_asked p q e : pt_made p -> pt_get_envelope p = Ok (q, e) -> pt_made q.
Lemma pt_compute_envelope_eq p : length (ppts p) <= 1 -> pt_compute_envelope p = Ok (envelope_of (ppts p)).
Proof.
  intros L. unfold pt_compute_envelope, pt_is_empty, seq_size, seq_coord. fold (ppts p). destruct (ppts p) as [|c [|d l]]; [reflexivity|reflexivity|cbn in L; lia].
Qed.
Lemma pt_copy_ok p : length (ppts p) <= 1 -> pt_copy p = Ok (mkPt (pt_seq p) None None).
Proof. intros L. unfold pt_copy. rewrite seq_copy_id. cbn [bind]. now apply pt_of_seq_id. Qed.
Lemma pt_inv p : pt_made p -> length (ppts p) <= 1 /\ forall e, pt_env p = Some e -> e = envelope_of (ppts p).
Proof.
  induction 1 as [|c pm|s p E|p q _ (L & C) E|p q _ (L & C) E|p q e _ (L & C) E].
  - split; [cbn; lia|discriminate].
  - split; [cbn; lia|discriminate].
  - destruct (Nat.le_gt_cases (seq_size s) 1) as [H|H]; [|rewrite pt_of_seq_panics in E; [discriminate|exact H]].
    rewrite pt_of_seq_id in E by exact H. injection E as <-. split; [exact H|discriminate].
  - rewrite pt_copy_ok in E by exact L. injection E as <-. split; [exact L|discriminate].
  - unfold pt_reverse in E. rewrite seq_copy_id in E. cbn [bind] in E. rewrite pt_of_seq_id in E by exact L. cbn [bind pt_seq pt_pm] in E. injection E as <-.
    destruct (pt_env p) as [e|]; (split; [exact L|]); cbn [pt_env]; [|discriminate]. intros e' Q. injection Q as <-. rewrite env_copy. now apply C.
  - unfold pt_get_envelope in E. destruct (pt_env p) as [e'|] eqn:C'.
    + injection E as <- <-. split; [exact L|]. rewrite C'. exact C.
    + rewrite pt_compute_envelope_eq in E by exact L. cbn [bind] in E. injection E as <- <-. split; [exact L|]. cbn [pt_env]. intros e Q. now injection Q as <-.
Qed.
(** Copy and reverse keep the coordinate, whatever the history. *)
Theorem C76_copy : forall p, pt_made p -> (exists q, pt_copy p = Ok q /\ pt_seq q = pt_seq p) /\ (exists q, pt_reverse p = Ok q /\ pt_seq q = pt_seq p /\ pt_env q = pt_env p).
Proof.
  intros p M. destruct (pt_inv p M) as (L & _). split; [rewrite pt_copy_ok by exact L; now eexists|].
  unfold pt_reverse. rewrite seq_copy_id. cbn [bind]. rewrite pt_of_seq_id by exact L. cbn [bind pt_seq pt_pm]. destruct (pt_env p) as [e|]; eexists; (split; [reflexivity|]); cbn; now rewrite ?env_copy.
Qed.
(** The envelope is the point, empty for the empty point, and asking again
    gives the same. *)
Lemma pt_envelope_eq p : pt_made p -> exists q, pt_get_envelope p = Ok (q, envelope_of (ppts p)) /\ pt_seq q = pt_seq p /\ pt_made q.
Proof.
  intros M. destruct (pt_inv p M) as (L & C).
  assert (exists q, pt_get_envelope p = Ok (q, envelope_of (ppts p)) /\ pt_seq q = pt_seq p) as (q & E & S).
  { unfold pt_get_envelope. destruct (pt_env p) as [e|] eqn:K.
    - rewrite env_copy, (C e eq_refl). now eexists.
    - rewrite pt_compute_envelope_eq by exact L. cbn [bind]. rewrite env_copy. now eexists. }
  exists q. split; [exact E|]. split; [exact S|]. now apply (tmade_asked p q (envelope_of (ppts p))).
Qed.
Theorem C76_envelope : forall p, pt_made p -> exists q e, pt_get_envelope p = Ok (q, e) /\ ppts q = ppts p /\
  (ppts p = [] -> e = env_default) /\
  (forall c, ppts p = [c] -> nn_xy c -> forall x y, in_box e x y <-> eqf x (cx c) /\ eqf y (cy c)) /\
  exists q', pt_get_envelope q = Ok (q', e).
Proof.
  intros p M. destruct (pt_envelope_eq p M) as (q & E & S & Mq). exists q, (envelope_of (ppts p)). split; [exact E|].
  assert (ppts q = ppts p) as Q by (unfold ppts; now rewrite S). split; [exact Q|]. split; [intros ->; reflexivity|]. split.
  - intros c -> (Nx & Ny) x y. unfold envelope_of. cbn [fold_left]. unfold expand_to_include_coordinate, expand_to_include_xy. cbn [is_null env_default].
    change (is_null env_default) with true. cbv iota. unfold in_box. cbn [minx maxx miny maxy]. rewrite !lef_rank, !eqf_rank. intuition (try lia).
  - destruct (pt_envelope_eq q Mq) as (q' & E' & _). exists q'. now rewrite Q in E'.
Qed.
(** Equality within a tolerance. *)
Theorem C76_equals_exact : forall hypot p q t, pt_made p -> pt_made q -> exists b, pt_equals_exact hypot p q t = Ok b /\
  (b = true <-> Forall2 (fun a b => if feqb t f0 then pt_eq b a else fleb (hypot (fsub (cx b) (cx a)) (fsub (cy b) (cy a))) t = true) (ppts p) (ppts q)).
Proof.
  intros hypot p q t M N. destruct (pt_inv p M) as (L & _), (pt_inv q N) as (K & _).
  unfold pt_equals_exact, pt_is_empty, pt_coordinate, seq_size, seq_coord. fold (ppts p) (ppts q).
  destruct (ppts p) as [|a [|]], (ppts q) as [|b [|]]; cbn in L, K; try lia; cbn.
  - exists true. split; [reflexivity|]. split; auto.
  - exists false. split; [reflexivity|]. split; [discriminate|]. intros F. inversion F.
  - exists false. split; [reflexivity|]. split; [discriminate|]. intros F. inversion F.
  - eexists. split; [reflexivity|]. unfold coords_equal, distance. split.
    + intros E. constructor; [|constructor]. destruct (feqb t f0); [now apply equals_2d_eq|exact E].
    + intros F. inversion F as [|? ? ? ? R]; subst. destruct (feqb t f0); [now apply equals_2d_eq|exact R].
Qed.
(** The order of points is the comparator's. *)
Theorem C76_compare : forall limit p q, small_seq (pt_seq p) -> small_seq (pt_seq q) ->
  exists c, pt_compare limit p q = Ok c /\ (c = -1 \/ c = 0 \/ c = 1)%Z /\
    (c = -1 <-> seq_lt limit (pt_seq p) (pt_seq q))%Z /\ (c = 1 <-> seq_lt limit (pt_seq q) (pt_seq p))%Z /\ (c = 0 <-> seq_eq limit (pt_seq p) (pt_seq q))%Z.
Proof. intros limit p q. apply C24_sequence_order. Qed.
Example C76_example : exists q, pt_made q /\ ppts q = [xy 3 4] /\ pt_env q <> None /\ nn_xy (xy 3 4) /\ small_seq (pt_seq q).
Proof.
  destruct (pt_envelope_eq (pt_new (xy 3 4) None) (tmade_new _ _)) as (q & E & S & M). exists q. split; [exact M|].
  split. { unfold ppts. rewrite S. reflexivity. }
  split. { unfold pt_get_envelope in E. cbn [pt_env pt_new] in E. rewrite pt_compute_envelope_eq in E by (cbn; lia). cbn [bind] in E. injection E as <-. discriminate. }
  split; [split; reflexivity|]. rewrite S. unfold small_seq. cbn. lia.
Qed.

(** ** C77: accessors of multi-geometries *)
Definition mpts (m : GMPoint) : list (list Coordinate) := map ppts (mp_points m).
(** Joining envelopes. *)
Definition join_envs (l : list (list Coordinate)) : Envelope := fold_left (fun e p => expand_to_include_envelope e (envelope_of p)) l env_default.
Lemma join_least l : Forall (Forall nn_xy) l -> wf_env (join_envs l) /\ forall c, wf_env c -> (subset (join_envs l) c <-> Forall (fun p => subset (envelope_of p) c) l).
Proof.
  unfold join_envs. assert (forall l e, wf_env e -> Forall (Forall nn_xy) l ->
    wf_env (fold_left (fun e p => expand_to_include_envelope e (envelope_of p)) l e) /\
    forall c, wf_env c -> (subset (fold_left (fun e p => expand_to_include_envelope e (envelope_of p)) l e) c <-> subset e c /\ Forall (fun p => subset (envelope_of p) c) l)) as H.
  { clear. induction l as [|p l IH]; intros e W F; cbn [fold_left]; [split; [exact W|]; intros c _; split; [auto|tauto]|].
    inversion F as [|? ? Fp Fl]; subst. pose proof (envelope_of_wf p Fp) as Wp. destruct (IH _ (expand_env_wf _ _ W Wp) Fl) as (A & B). split; [exact A|].
    intros c Wc. rewrite (B c Wc), (expand_env_least _ _ _ W Wp Wc), Forall_cons_iff. tauto. }
  intros F. destruct (H l env_default (or_introl eq_refl) F) as (A & B). split; [exact A|]. intros c Wc. rewrite (B c Wc). split; [tauto|]. intros K. split; [apply subset_default|exact K].
Qed.
(** Multi-points reachable through the API (copies of non-empty ones panic). *)
Inductive mp_made : GMPoint -> Prop :=
| mmade_new ps pm : Forall pt_made ps -> mp_made (mp_new ps pm)
| mmade_asked m m' e : mp_made m -> mp_get_envelope m = Ok (m', e) -> mp_made m'.
Lemma mp_compute_eq m : Forall pt_made (mp_points m) ->
  exists ps, mp_compute_envelope m = Ok (mkMPt ps (mp_pm m) (mp_env m), join_envs (mpts m)) /\ Forall pt_made ps /\ map ppts ps = mpts m.
Proof.
  intros F. unfold mp_compute_envelope.
  match goal with |- context [forN _ 0 _ ?b] => set (body := b) end.
  destruct (forN_ind (fun i '(ps, e) => Forall pt_made ps /\ map ppts ps = mpts m /\ e = join_envs (firstn i (mpts m))) body (length (mp_points m)) 0 (mp_points m, env_default)) as ((ps & e) & E & Fp & Mp & Je).
  - cbn. auto.
  - intros i (ps & e) Hi (Fp & Mp & ->). assert (length ps = length (mp_points m)) as L by (rewrite <- (map_length ppts), Mp; apply map_length).
    destruct (nth_error ps i) as [p|] eqn:N; [|apply nth_error_None in N; lia]. unfold body, idx. rewrite N. cbn [bind].
    assert (pt_made p) as Hp by (rewrite Forall_forall in Fp; apply Fp; eapply nth_error_In; eauto).
    destruct (pt_envelope_eq p Hp) as (q & -> & Es & Mq). cbn [bind]. rewrite upd_ok by lia. cbn [bind]. eexists. split; [reflexivity|].
    assert (ppts q = ppts p) as Q by (unfold ppts; now rewrite Es).
    assert (ps = firstn i ps ++ p :: skipn (S i) ps) as Sp.
    { clear - N. revert i N. induction ps as [|x l IH]; intros [|i] N; cbn in N; try discriminate; [injection N as ->; reflexivity|]. cbn. f_equal. now apply IH. }
    split; [|split].
    + rewrite Sp in Fp. apply Forall_app in Fp. destruct Fp as (F1 & F2). inversion F2; subst. apply Forall_app. auto.
    + rewrite <- Mp. rewrite Sp at 3. rewrite !map_app. cbn [map]. now rewrite Q.
    + rewrite <- Mp. assert (firstn (S i) (map ppts ps) = firstn i (map ppts ps) ++ [ppts p]) as ->.
      { rewrite !firstn_map. clear - N. revert i N. induction ps as [|x l IH]; intros [|i] N; cbn in N; try discriminate; [now injection N as ->|]. cbn [firstn map app]. f_equal. now apply IH. }
      unfold join_envs. rewrite fold_left_app. reflexivity.
  - rewrite E. cbn [bind fst snd]. exists ps. split; [|auto]. rewrite Je. cbn. rewrite firstn_all2; [reflexivity|]. unfold mpts. rewrite map_length. lia.
Qed.
Lemma mp_inv m : mp_made m -> Forall pt_made (mp_points m) /\ forall e, mp_env m = Some e -> e = join_envs (mpts m).
Proof.
  induction 1 as [ps pm F|m m' e _ (F & C) E]; [split; [exact F|discriminate]|].
  unfold mp_get_envelope in E. destruct (mp_env m) as [e'|] eqn:K.
  - injection E as <- <-. split; [exact F|]. rewrite K. exact C.
  - destruct (mp_compute_eq m F) as (ps & Ec & Fp & Mp). rewrite Ec in E. cbn [bind mp_points mp_pm] in E. injection E as <- <-. split; [exact Fp|].
    cbn [mp_env]. intros e Q. injection Q as <-. f_equal. symmetry. exact Mp.
Qed.
(** The envelope of a multi-point is the least box of its points, after any
    number of calls, and asking keeps the points. *)
Theorem C77_point_envelope : forall m, mp_made m -> Forall nn_xy (concat (mpts m)) -> exists m' e, mp_get_envelope m = Ok (m', e) /\
  Forall (fun c => in_box e (cx c) (cy c)) (concat (mpts m)) /\
  (forall b, wf_env b -> Forall (fun c => in_box b (cx c) (cy c)) (concat (mpts m)) -> subset e b) /\
  mpts m' = mpts m /\ mp_made m'.
Proof.
  intros m M N. destruct (mp_inv m M) as (F & C).
  assert (exists m', mp_get_envelope m = Ok (m', join_envs (mpts m)) /\ mpts m' = mpts m) as (m' & E & Q).
  { unfold mp_get_envelope. destruct (mp_env m) as [e|] eqn:K.
    - exists m. rewrite env_copy, (C e eq_refl). auto.
    - destruct (mp_compute_eq m F) as (ps & -> & _ & Mp). cbn [bind mp_points mp_pm]. rewrite env_copy. eexists. split; [reflexivity|]. exact Mp. }
  exists m', (join_envs (mpts m)). split; [exact E|]. apply Forall_concat in N. destruct (join_least (mpts m) N) as (W & L).
  split; [|split; [|split; [exact Q|now apply (mmade_asked m m' (join_envs (mpts m)))]]].
  - apply Forall_concat. apply Forall_forall. intros p I. apply Forall_forall. intros c Ic. pose proof (proj1 (L _ W) (fun x y h => h)) as K. rewrite Forall_forall in K, N.
    apply (K p I). now apply envelope_of_covers; [apply N|].
  - intros b Wb G. apply (L b Wb). apply Forall_concat in G. rewrite Forall_forall in G, N |- *. intros p I. apply envelope_of_least; auto.
Qed.
(** Equality of multi-points is pointwise, within the tolerance. *)
Theorem C77_point_equals : forall hypot m o t, Forall pt_made (mp_points m) -> Forall pt_made (mp_points o) -> exists b, mp_equals_exact hypot m o t = Ok b /\
  (b = true <-> Forall2 (Forall2 (fun a b => if feqb t f0 then pt_eq b a else fleb (hypot (fsub (cx b) (cx a)) (fsub (cy b) (cy a))) t = true)) (mpts m) (mpts o)).
Proof.
  intros hypot m o t M N. unfold mp_equals_exact, mpts. match goal with |- context [Forall2 (Forall2 ?r)] => set (R := Forall2 r) end.
  set (test := fun p q => match pt_equals_exact hypot p q t with Ok b => b | Panic => false end).
  assert (forall p q, pt_made p -> pt_made q -> pt_equals_exact hypot p q t = Ok (test p q) /\ (test p q = true <-> R (ppts p) (ppts q))) as T.
  { intros p q P Q. unfold test. destruct (C76_equals_exact hypot p q t P Q) as (b & -> & H). auto. }
  destruct (Nat.eqb_spec (length (mp_points m)) (length (mp_points o))) as [L|L]; cbn [negb].
  - rewrite (pairs_loop test (mp_points m) (mp_points o)); [|exact L|].
    + eexists. split; [reflexivity|]. rewrite all_pairs_F2. clear L. revert N. generalize (mp_points o). induction M as [|p l P M IH]; intros [|q k] N; cbn [map]; (split; intros F; inversion F; subst; try constructor).
      * inversion N; subst. now apply T.
      * inversion N; subst. now apply IH.
      * inversion N; subst. now apply T.
      * inversion N; subst. now apply IH.
    + intros i x y X Y. unfold idx. rewrite X, Y. cbn [bind]. rewrite Forall_forall in M, N. destruct (T x y) as (-> & _); [apply M; eapply nth_error_In; eauto|apply N; eapply nth_error_In; eauto|reflexivity].
  - exists false. split; [reflexivity|]. split; [discriminate|]. intros F. apply Forall2_length in F. rewrite !map_length in F. contradiction.
Qed.
(** Access by index: the first point is never reached, and the two indices
    just past the end panic. *)
Theorem C77_point_at : forall u m i, usize_arith u -> Forall pt_made (mp_points m) -> (Z.of_nat (length (mp_points m)) < usize_max)%Z -> (Z.of_nat i <= usize_max)%Z ->
  let n := length (mp_points m) in
  (n = 0 -> mp_point_at u m i = Ok None) /\
  (0 < n -> i = 0 -> (u = usize_chk -> mp_point_at u m i = Panic) /\ (u = usize_wrapping -> mp_point_at u m i = Ok None)) /\
  (0 < i < n -> exists p q, nth_error (mp_points m) i = Some p /\ mp_point_at u m i = Ok (Some q) /\ ppts q = ppts p) /\
  (0 < n -> i = n \/ i = S n -> mp_point_at u m i = Panic) /\
  (0 < n -> S n < i -> mp_point_at u m i = Ok None).
Proof.
  intros u m i U F Bn Bi n. unfold mp_point_at. fold n. destruct (Nat.eqb_spec n 0) as [E|E]; [repeat split; intros; auto; lia|].
  split; [lia|]. split.
  { intros _ ->. change (Z.of_nat 0 - 1)%Z with (-1)%Z. split; intros ->; [reflexivity|]. change (usize_wrapping (-1)) with (Ok usize_max). cbn [bind].
    destruct (Z.ltb_spec (Z.of_nat n) usize_max); [reflexivity|lia]. }
  split; [|split].
  - intros H. rewrite (u_in u) by (auto; lia). cbn [bind]. destruct (Z.ltb_spec (Z.of_nat n) (Z.of_nat i - 1)); [lia|].
    destruct (nth_error (mp_points m) i) as [p|] eqn:N; [|apply nth_error_None in N; lia]. unfold idx. rewrite N. cbn [bind].
    destruct (pt_inv p) as (L & _). { rewrite Forall_forall in F. apply F. eapply nth_error_In; eauto. }
    rewrite pt_copy_ok by exact L. cbn [bind]. eexists p, _. split; [reflexivity|]. split; reflexivity.
  - intros _ H. rewrite (u_in u) by (auto; lia). cbn [bind]. destruct (Z.ltb_spec (Z.of_nat n) (Z.of_nat i - 1)); [lia|].
    rewrite idx_panic by lia. reflexivity.
  - intros _ H. rewrite (u_in u) by (auto; lia). cbn [bind]. destruct (Z.ltb_spec (Z.of_nat n) (Z.of_nat i - 1)); [reflexivity|lia].
Qed.
Theorem C77_point_at_refuted : ~ (forall m i p, nth_error (mp_points m) i = Some p -> exists q, mp_point_at usize_chk m i = Ok (Some q)).
Proof.
  intros H. destruct (H (mp_new [pt_default] None) 0 pt_default eq_refl) as (q & E). discriminate.
Qed.
(** The coordinates of a multi-point: those of its points, then one default
    coordinate for every empty point. *)
Lemma length_concat_ppts l : Forall pt_made l -> length (concat (map ppts l)) <= length l.
Proof. induction 1 as [|p l P _ IH]; cbn; [lia|]. rewrite app_length. destruct (pt_inv p P). lia. Qed.
Theorem C77_point_coordinates : forall i m, i32_arith i -> Forall pt_made (mp_points m) -> (Z.of_nat (mp_num_points m) <= 2147483648)%Z ->
  mp_coordinates i m = Ok (concat (mpts m) ++ repeat coord_default (mp_num_points m - length (concat (mpts m)))).
Proof.
  intros i m I F B. unfold mp_coordinates, mp_num_points, mpts in *. set (ps := mp_points m) in *.
  match goal with |- context [forN _ 0 _ ?b] => set (body := b) end.
  destruct (forN_ind (fun n '(k, out) => k = (Z.of_nat (length (concat (map ppts (firstn n ps)))) - 1)%Z /\
      out = concat (map ppts (firstn n ps)) ++ repeat coord_default (length ps - length (concat (map ppts (firstn n ps))))) body (length ps) 0 (-1, repeat coord_default (length ps))%Z) as ((k & out) & E & _ & P).
  - cbn. now rewrite Nat.sub_0_r.
  - intros n (k & out) Hn (-> & ->). destruct (nth_error ps n) as [p|] eqn:N; [|apply nth_error_None in N; lia]. unfold body, idx. rewrite N. cbn [bind].
    assert (pt_made p) as Hp by (rewrite Forall_forall in F; apply F; eapply nth_error_In; eauto). destruct (pt_inv p Hp) as (L & _).
    assert (pt_coordinates p = Ok (ppts p)) as ->. { unfold pt_coordinates, pt_is_empty, pt_coordinate, seq_size, seq_coord. fold (ppts p). destruct (ppts p) as [|c [|]]; [reflexivity|reflexivity|cbn in L; lia]. }
    cbn [bind]. assert (firstn (S n) ps = firstn n ps ++ [p]) as K.
    { clear - N. revert n N. generalize ps. induction ps0 as [|x l IH]; intros [|n] N; cbn in N; try discriminate; [now injection N as ->|]. cbn [firstn app]. f_equal. now apply IH. }
    rewrite K. rewrite map_app, concat_app. cbn [map concat]. rewrite app_nil_r. set (pre := concat (map ppts (firstn n ps))).
    assert (length pre + length (ppts p) <= S n) as Lp.
    { assert (length (concat (map ppts (firstn (S n) ps))) <= length (firstn (S n) ps)) as Q.
      { apply length_concat_ppts. rewrite Forall_forall in F |- *. intros x X. apply F. rewrite <- (firstn_skipn (S n) ps). apply in_or_app. now left. }
      rewrite K, map_app, concat_app in Q. cbn [map concat] in Q. rewrite app_nil_r, app_length in Q. fold pre in Q. rewrite <- K, firstn_length in Q. lia. }
    rewrite put_all_ok; [|exact I|rewrite repeat_length; lia|lia]. eexists. split; [reflexivity|]. rewrite app_length. split; [reflexivity|]. f_equal.
    clear - Lp Hn. replace (length ps - length pre) with (length (ppts p) + (length ps - (length pre + length (ppts p)))) by lia. rewrite repeat_app.
    rewrite skipn_app, skipn_all2 by (rewrite repeat_length; lia). rewrite repeat_length. now replace (length (ppts p) - length (ppts p)) with 0 by lia.
  - rewrite E. cbn [bind snd]. rewrite P. cbn [Nat.add]. now rewrite firstn_all.
Qed.
Theorem C77_point_coordinates_refuted : ~ (forall m cs, Forall pt_made (mp_points m) -> mp_coordinates i32_chk m = Ok cs -> cs = concat (mpts m)).
Proof.
  intros H. assert (Forall pt_made (mp_points (mp_new [pt_default] None))) as F by (repeat constructor).
  specialize (H (mp_new [pt_default] None) [coord_default] F). assert (@nil Coordinate = [coord_default]) as K; [|discriminate].
  symmetry. apply H. reflexivity.
Qed.
Theorem C77_point_coordinate : forall m n, Forall pt_made (mp_points m) ->
  (forall p, nth_error (mp_points m) n = Some p -> mp_coordinate m n = Ok (hd_error (ppts p))) /\
  (length (mp_points m) <= n -> mp_coordinate m n = Panic).
Proof.
  intros m n F. unfold mp_coordinate. split.
  - intros p N. unfold idx. rewrite N. cbn [bind]. unfold pt_coordinate, seq_size, seq_coord. fold (ppts p). destruct (ppts p); reflexivity.
  - intros L. now rewrite idx_panic.
Qed.
(** The factory makes one point per coordinate; X, Y and Z are kept, but a
    measure becomes zero. *)
Lemma dims_range cs : cs <> [] -> (2 <= arr_dimension cs <= 4 /\ 0 <= arr_measures cs <= 1 /\ (arr_measures cs = 1 -> 3 <= arr_dimension cs) /\ (arr_measures cs = 0 -> arr_dimension cs <= 3))%Z /\
  forall c, In c cs -> (coords_dimension c <= arr_dimension cs /\ coords_measures c <= arr_measures cs)%Z.
Proof.
  assert (forall c, (2 <= coords_dimension c <= 4 /\ 0 <= coords_measures c <= 1 /\ (coords_measures c = 1 -> 3 <= coords_dimension c) /\ (coords_measures c = 0 -> coords_dimension c <= 3))%Z) as Q.
  { intros c. unfold coords_dimension, coords_measures. destruct (is_xy c), (is_xym c), (is_xyzm c); lia. }
  assert (forall l d m, (0 <= d <= 4 /\ 0 <= m <= 1 /\ (m = 1 -> 3 <= d) /\ (m = 0 -> d <= 3))%Z ->
    let d' := fold_left (fun d c => Z.max d (coords_dimension c)) l d in let m' := fold_left (fun d c => Z.max d (coords_measures c)) l m in
    (d <= d' <= 4 /\ m <= m' <= 1 /\ (m' = 1 -> 3 <= d') /\ (m' = 0 -> d' <= 3))%Z /\ forall c, In c l -> (coords_dimension c <= d' /\ coords_measures c <= m')%Z) as H.
  { induction l as [|c l IH]; intros d m B; cbn [fold_left]; cbv zeta. { split; [lia|]. intros c []. }
    pose proof (Q c) as Qc. destruct (IH (Z.max d (coords_dimension c)) (Z.max m (coords_measures c))) as (A & C); [lia|]. cbv zeta in A, C. split; [lia|].
    intros c' [<-|I]; [lia|]. now apply C. }
  intros N. destruct cs as [|c cs]; [easy|]. clear N. unfold arr_dimension, arr_measures.
  destruct (H (c :: cs) 0%Z 0%Z) as (A & C); [lia|]. cbv zeta in A, C. split; [|exact C]. pose proof (Q c). destruct (C c (or_introl eq_refl)). lia.
Qed.
Lemma flat_z c : coords_dimension c = 2%Z -> cz c = fnan.
Proof.
  unfold coords_dimension. destruct (is_xy c) eqn:X; [|destruct (is_xym c); [discriminate|]; destruct (is_xyzm c); discriminate].
  intros _. unfold is_xy in X. destruct c as [x y z m]; cbn [cx cy cz cm] in *. destruct z; try (rewrite !andb_false_r in X; discriminate). reflexivity.
Qed.
Theorem C77_create : forall cs, exists m, create_multi_point cs = Ok m /\
  mpts m = map (fun c => [mkC (cx c) (cy c) (cz c) (if Z.eqb (arr_measures cs) 1 then f0 else fnan)]) cs.
Proof.
  intros cs. destruct cs as [|c0 cs0] eqn:Ecs. { exists (mp_new [] None). split; reflexivity. }
  rewrite <- Ecs. assert (cs <> []) as Ne by (rewrite Ecs; discriminate). clear c0 cs0 Ecs.
  destruct (dims_range cs Ne) as ((Dr & M & DM & DN) & R). unfold create_multi_point, create_multi_point_of_seq. change (seq_size (seq_of cs)) with (length cs).
  set (g := fun c => [mkC (cx c) (cy c) (cz c) (if Z.eqb (arr_measures cs) 1 then f0 else fnan)]).
  match goal with |- context [forN _ 0 _ ?b] => set (body := b) end.
  destruct (forN_ind (fun i ps => length ps = length cs /\ map ppts (firstn i ps) = map g (firstn i cs)) body (length cs) 0 (repeat pt_default (length cs))) as (ps & E & L & P).
  - split; [apply repeat_length|reflexivity].
  - intros i ps Hi (L & P). unfold body.
    assert (seq_create_meas 1 (sdim (seq_of cs)) (smeas (seq_of cs)) = Ok (seq_new_size_dim_meas 1 (arr_dimension cs) (arr_measures cs))) as ->.
    { cbn [sdim smeas seq_of]. unfold seq_create_meas. assert (forall z, (0 <= z <= 10)%Z -> i32_chk z = Ok z) as IC by (intros z Hz; now apply (i32_in i32_chk); [left|lia]).
      rewrite IC by lia. cbn [bind]. destruct (Z.gtb_spec (arr_measures cs) 1); [lia|]. destruct (Z.gtb_spec (arr_dimension cs - arr_measures cs) 3); [lia|].
      destruct (Z.ltb_spec (arr_dimension cs - arr_measures cs) 2); [lia|]. rewrite IC by lia. cbn [bind]. repeat f_equal. lia. }
    cbn [bind]. set (dst := seq_new_size_dim_meas 1 (arr_dimension cs) (arr_measures cs)).
    destruct (copy_spec CSeq sdim seq_get seq_set good_a view_a w_a smeas a_get a_set (seq_of cs) (length cs) i dst 1 0 1 eq_refl) as (d' & -> & Gd & Hd & V); [lia|reflexivity|lia|reflexivity|].
    cbn [bind]. unfold good_a in Gd. rewrite pt_of_seq_id by (unfold seq_size; lia). cbn [bind]. rewrite upd_ok by lia. eexists. split; [reflexivity|].
    split. { rewrite app_length. cbn [length]. rewrite firstn_length, skipn_length. lia. }
    assert (firstn i ps ++ mkPt d' None None :: skipn (S i) ps = (firstn i ps ++ [mkPt d' None None]) ++ skipn (S i) ps) as -> by now rewrite <- app_assoc.
    rewrite firstn_app. assert (length (firstn i ps ++ [mkPt d' None None]) = S i) as LS by (rewrite app_length, firstn_length; cbn; lia). rewrite LS, Nat.sub_diag, firstn_O, app_nil_r. rewrite (firstn_all2 (n := S i)) by (rewrite LS; lia).
    rewrite map_app, P. cbn [map]. destruct (nth_error cs i) as [c|] eqn:N; [|apply nth_error_None in N; lia].
    assert (firstn (S i) cs = firstn i cs ++ [c]) as ->.
    { clear - N. revert i N. induction cs as [|x l IH]; intros [|i] N; cbn in N; try discriminate; [now injection N as ->|]. cbn [firstn app]. f_equal. now apply IH. }
    rewrite map_app. cbn [map]. f_equal. f_equal. unfold ppts, g. cbn [pt_seq].
    destruct (scoords d') as [|e [|]] eqn:Sd; cbn in Gd; try lia. f_equal.
    assert (point d' 0 = e) as Pe by (unfold point; now rewrite Sd). assert (point (seq_of cs) i = c) as Pc by (unfold point; cbn [scoords seq_of]; now apply nth_error_nth).
    assert (In c cs) as Ic by (eapply nth_error_In; eauto). destruct (R c Ic) as (Rd & Rm).
    assert (forall k, k < 4 -> ord4 e k = if k <? Nat.min (Z.to_nat (arr_dimension cs)) 3 then ord4 c k else ord4 (create_dim_measures (arr_dimension cs) (arr_measures cs)) k) as O.
    { intros k Hk. specialize (V 0 k). unfold view_a in V. rewrite Pe in V. rewrite V. cbn [Nat.leb Nat.ltb andb Nat.add Nat.sub]. rewrite Nat.add_0_r, Pc.
      unfold vis, D, w_a, dst. cbn [sdim seq_of seq_new_size_dim_meas]. replace (Nat.min (Nat.min (Z.to_nat (arr_dimension cs)) 3) (Nat.min (Z.to_nat (arr_dimension cs)) 3)) with (Nat.min (Z.to_nat (arr_dimension cs)) 3) by lia.
      change (0 <? 1) with true. cbn [andb]. destruct (k <? Nat.min (Z.to_nat (arr_dimension cs)) 3); reflexivity. }
    pose proof (O 0 ltac:(lia)) as O0. pose proof (O 1 ltac:(lia)) as O1. pose proof (O 2 ltac:(lia)) as O2. pose proof (O 3 ltac:(lia)) as O3.
    rewrite (proj2 (Nat.ltb_lt 0 _)) in O0 by lia. rewrite (proj2 (Nat.ltb_lt 1 _)) in O1 by lia. rewrite (proj2 (Nat.ltb_ge 3 _)) in O3 by lia. cbn [ord4] in O0, O1, O2, O3.
    assert (cz e = cz c) as Oz.
    { destruct (Nat.ltb_spec 2 (Nat.min (Z.to_nat (arr_dimension cs)) 3)); [exact O2|]. assert (arr_dimension cs = 2%Z) as D2 by lia. rewrite D2 in O2. cbn in O2. rewrite O2. symmetry. apply flat_z.
      unfold coords_dimension in *. destruct (is_xy c), (is_xym c), (is_xyzm c); lia. }
    assert (cm e = if (arr_measures cs =? 1)%Z then f0 else fnan) as Om.
    { rewrite O3. unfold create_dim_measures. destruct (Z.eqb_spec (arr_measures cs) 1) as [M1|M1].
      - rewrite M1. assert (arr_dimension cs = 3 \/ arr_dimension cs = 4)%Z as [->| ->] by lia; reflexivity.
      - assert (arr_measures cs = 0)%Z as -> by lia. assert (arr_dimension cs = 2 \/ arr_dimension cs = 3)%Z as [->| ->] by lia; reflexivity. }
    destruct e as [ex ey ez em]. cbn [cx cy cz cm] in *. congruence.
  - fold body. rewrite E. cbn [bind]. exists (mp_new ps None). split; [reflexivity|]. unfold mpts. cbn [mp_points mp_new]. cbn [Nat.add] in P. rewrite !firstn_all2 in P by lia. exact P.
Qed.
(** A multi-point keeps the points and the precision model it was made with, also after its
    envelope was asked for; the count and the test for emptiness are those of the list. *)
Theorem C77_point_new : forall pts pm, let m := mp_new pts pm in
  mp_points m = pts /\ mp_pm m = pm /\ (Forall pt_made pts -> forall m' e, mp_get_envelope m = Ok (m', e) -> mp_pm m' = pm /\ length (mp_points m') = length pts) /\
  mp_num_points m = length pts /\ (mp_is_empty m = true <-> pts = []) /\
  forall cs n, create_multi_point cs = Ok n -> mp_pm n = None /\ (mp_is_empty n = true <-> cs = []) /\ mp_num_points n = length cs.
Proof.
  intros pts pm m. split; [reflexivity|]. split; [reflexivity|]. split.
  { intros F m' e E. unfold mp_get_envelope in E. cbn [mp_env m mp_new] in E. destruct (mp_compute_eq m F) as (ps & Ec & _ & Mp).
    unfold m in *. rewrite Ec in E. cbn [bind mp_points mp_pm mp_new] in E. injection E as <- <-. split; [reflexivity|]. cbn [mp_points].
    apply (f_equal (@length _)) in Mp. unfold mpts in Mp. cbn [mp_points mp_new] in Mp. now rewrite !map_length in Mp. }
  split; [reflexivity|]. assert (E : forall n, mp_is_empty n = true <-> mp_points n = []).
  { intros n. unfold mp_is_empty. rewrite Nat.eqb_eq. now rewrite length_zero_iff_nil. }
  split; [apply E|]. intros cs n C.
  assert (mp_pm n = None) as P.
  { unfold create_multi_point, create_multi_point_of_seq in C. match type of C with bind ?x _ = _ => destruct x; [|discriminate C] end. cbn [bind] in C. now injection C as <-. }
  destruct (C77_create cs) as (n' & C' & M). rewrite C in C'. injection C' as <-.
  assert (length (mp_points n) = length cs) as L by (apply (f_equal (@length _)) in M; unfold mpts in M; now rewrite !map_length in M).
  split; [exact P|]. split; [|exact L]. rewrite E. rewrite <- !length_zero_iff_nil, L. reflexivity.
Qed.
Theorem C77_create_without_m : forall cs, Forall (fun c => cm c = fnan) cs -> exists m, create_multi_point cs = Ok m /\ mpts m = map (fun c => [c]) cs.
Proof.
  intros cs F. destruct (C77_create cs) as (m & E & P). exists m. split; [exact E|]. rewrite P.
  assert (arr_measures cs = 0%Z) as ->.
  { destruct cs as [|c cs]; [reflexivity|]. unfold arr_measures. assert (forall l, Forall (fun c => cm c = fnan) l -> fold_left (fun d c => Z.max d (coords_measures c)) l 0%Z = 0%Z) as K; [|now apply K].
    induction 1 as [|d l H _ IH]; [reflexivity|]. cbn [fold_left]. assert (coords_measures d = 0)%Z as ->; [|exact IH].
    unfold coords_measures, is_xy, is_xym, is_xyzm. rewrite H. change (fis_nan fnan) with true. cbn [negb]. rewrite !andb_false_r. now destruct (_ && true). }
  apply map_ext_in. intros c I. rewrite Forall_forall in F. specialize (F c I). destruct c; cbn in *. now rewrite F.
Qed.
Theorem C77_create_keeps_m_refuted : ~ (forall cs m, create_multi_point cs = Ok m -> mpts m = map (fun c => [c]) cs).
Proof.
  intros H. destruct (C77_create [mkC f0 f0 fnan f1]) as (m & E & P). specialize (H _ _ E). rewrite P in H.
  apply (f_equal (fun l => match l with (c :: _) :: _ => feqb (cm c) f1 | _ => true end)) in H. vm_compute in H. discriminate.
Qed.
(** ** Lines *)
Lemma none_empty {A} (l : list A) (test : A -> bool) :
  (r <- forR (length l) 0 tt (fun i _ => a <- idx l i ;; Ok (if negb (test a) then inr false else inl tt)) ;;
   match r with inr b => Ok b | inl _ => Ok true end) = Ok (forallb test l).
Proof.
  match goal with |- context [forR _ 0 tt ?b] => set (body := b) end.
  destruct (forR_all (fun i => match nth_error l i with Some a => test a | None => false end) body (length l) false) as [(E & K)|(E & i & Hi & T & _)].
  - intros i Hi. unfold body, idx. destruct (nth_error l i) as [a|] eqn:N; [reflexivity|]. apply nth_error_None in N. lia.
  - rewrite E. cbn [bind]. f_equal. symmetry. apply forallb_forall. intros a I. destruct (In_nth_error _ _ I) as (i & N). assert (i < length l) as Hi by (apply nth_error_Some; congruence).
    specialize (K i Hi). now rewrite N in K.
  - rewrite E. cbn [bind]. f_equal. symmetry. apply not_true_is_false. rewrite forallb_forall. intros K. destruct (nth_error l i) as [a|] eqn:N; [|apply nth_error_None in N; lia].
    rewrite (K a) in T; [discriminate|]. eapply nth_error_In; eauto.
Qed.
(** A multi-line is empty if all its lines are, and closed if it is not empty
    and all its lines are closed. *)
Theorem C77_line_is_empty : forall m, exists b, ml_is_empty m = Ok b /\ (b = true <-> Forall (fun l => lpts l = []) (ml_lines m)).
Proof.
  intros m. unfold ml_is_empty. rewrite none_empty. eexists. split; [reflexivity|]. rewrite forallb_forall, Forall_forall.
  split; intros H l I; specialize (H l I); unfold ln_is_empty, seq_size in *; fold (lpts l) in *; [now destruct (lpts l)|now rewrite H].
Qed.
Theorem C77_line_is_closed : forall m, exists b, ml_is_closed m = Ok b /\
  (b = true <-> ml_lines m <> [] /\ Forall (fun l => closed (lpts l)) (ml_lines m)) /\ ml_boundary_dimension m = Ok (if b then -1 else 0)%Z.
Proof.
  intros m. set (tc := fun l => match ln_is_closed l with Ok b => b | Panic => false end).
  assert (forall l, ln_is_closed l = Ok (tc l) /\ (tc l = true <-> closed (lpts l))) as T.
  { intros l. unfold tc. destruct (C67_is_closed l) as (b & -> & H & _). auto. }
  assert (exists b, ml_is_closed m = Ok b /\ (b = true <-> ml_lines m <> [] /\ Forall (fun l => closed (lpts l)) (ml_lines m))) as (b & E & B).
  { unfold ml_is_closed. destruct (C77_line_is_empty m) as (e & -> & He). cbn [bind]. destruct e.
    - exists false. split; [reflexivity|]. split; [discriminate|]. intros (N & F). exfalso. destruct (ml_lines m) as [|l ls]; [easy|]. pose proof (proj1 He eq_refl) as G. inversion G as [|? ? G1 _]; inversion F as [|? ? (a & b & A & _) _]; subst. rewrite G1 in A. discriminate.
    - match goal with |- context [forR ?n 0 tt ?body] => rewrite (forR_ext n 0 tt body (fun i _ => a <- idx (ml_lines m) i ;; Ok (if negb (tc a) then inr false else inl tt))) end.
      + rewrite none_empty. eexists. split; [reflexivity|]. rewrite forallb_forall, Forall_forall. split.
        * intros H. split; [|intros l I; apply T; now apply H]. intros N. rewrite N in He. assert (false = true) by now apply He. discriminate.
        * intros (_ & H) l I. apply T. now apply H.
      + intros i s Hi. destruct (idx (ml_lines m) i) as [l|]; [|reflexivity]. cbn [bind]. destruct (T l) as (-> & _). reflexivity. }
  exists b. split; [exact E|]. split; [exact B|]. unfold ml_boundary_dimension. now rewrite E.
Qed.
Theorem C77_line_equals : forall hypot m o t, exists b, ml_equals_exact hypot m o t = Ok b /\
  (b = true <-> Forall2 (fun l k => Forall2 (fun p q => if feqb t f0 then pt_eq p q else fleb (hypot (fsub (cx p) (cx q)) (fsub (cy p) (cy q))) t = true) (lpts l) (lpts k)) (ml_lines m) (ml_lines o)).
Proof.
  intros hypot m o t. unfold ml_equals_exact. set (test := fun p q => match ln_equals_exact hypot p q t with Ok b => b | Panic => false end).
  destruct (Nat.eqb_spec (length (ml_lines m)) (length (ml_lines o))) as [L|L]; cbn [negb].
  - rewrite (pairs_loop test (ml_lines m) (ml_lines o)); [|exact L|].
    + eexists. split; [reflexivity|]. rewrite all_pairs_F2. split; intros F; (eapply Forall2_impl; [|exact F]); intros l k; cbn beta; unfold test; destruct (C67_equals_exact hypot l k t) as (b & -> & H); apply H.
    + intros i x y X Y. unfold idx. rewrite X, Y. cbn [bind]. unfold test. destruct (C67_equals_exact hypot x y t) as (b & -> & _). reflexivity.
  - exists false. split; [reflexivity|]. split; [discriminate|]. intros F. apply Forall2_length in F. contradiction.
Qed.
(** ** Polygons *)
Theorem C77_polygon_access : forall m, 
  (exists b, mg_is_empty m = Ok b /\ (b = true <-> Forall (fun p => spts p = []) (mg_polys m))) /\
  mg_num_polygons m = length (mg_polys m) /\
  (forall n p, nth_error (mg_polys m) n = Some p -> exists q, mg_polygon_at m n = Ok q /\ spts q = spts p /\ hpts q = hpts p) /\
  (forall n, length (mg_polys m) <= n -> mg_polygon_at m n = Panic).
Proof.
  intros m. split; [|split; [reflexivity|split]].
  - unfold mg_is_empty. rewrite none_empty. eexists. split; [reflexivity|]. rewrite forallb_forall, Forall_forall.
    split; intros H p I; specialize (H p I); unfold pg_is_empty, rg_is_empty, seq_size, spts, rpts in *; [now destruct (scoords (rg_seq (pg_shell p)))|now rewrite H].
  - intros n p N. unfold mg_polygon_at, idx. rewrite N. cbn [bind]. destruct (C68_copy p) as (q & E & S & H). exists q. split; [exact E|].
    unfold spts, hpts, rpts. rewrite S. split; [reflexivity|]. apply (f_equal (map scoords)) in H. now rewrite !map_map in H.
  - intros n L. unfold mg_polygon_at. now rewrite idx_panic.
Qed.
Theorem C77_polygon_equals : forall hypot m o t, exists b, mg_equals_exact hypot m o t = Ok b /\
  (b = true <-> Forall2 (fun p q => Forall2 (Forall2 (fun a b => if feqb t f0 then pt_eq a b else fleb (hypot (fsub (cx a) (cx b)) (fsub (cy a) (cy b))) t = true)) (spts p :: hpts p) (spts q :: hpts q)) (mg_polys m) (mg_polys o)).
Proof.
  intros hypot m o t. unfold mg_equals_exact. set (test := fun p q => match pg_equals_exact hypot p q t with Ok b => b | Panic => false end).
  destruct (Nat.eqb_spec (length (mg_polys m)) (length (mg_polys o))) as [L|L]; cbn [negb].
  - rewrite (pairs_loop test (mg_polys m) (mg_polys o)); [|exact L|].
    + eexists. split; [reflexivity|]. rewrite all_pairs_F2. split; intros F; (eapply Forall2_impl; [|exact F]); intros l k; cbn beta; unfold test; destruct (C68_equals_exact hypot l k t) as (b & -> & H); apply H.
    + intros i x y X Y. unfold idx. rewrite X, Y. cbn [bind]. unfold test. destruct (C68_equals_exact hypot x y t) as (b & -> & _). reflexivity.
  - exists false. split; [reflexivity|]. split; [discriminate|]. intros F. apply Forall2_length in F. contradiction.
Qed.
(** The area is the sum of the areas, shells minus holes, exact on grids. *)
Definition poly_area2 (zs : list (Z * Z)) (hzs : list (list (Z * Z))) : Z := (Z.abs (trapezoids zs) - holes_area2 hzs)%Z.
Definition sum_area2 (l : list (list (Z * Z) * list (list (Z * Z)))) : Z := fold_right (fun '(zs, hzs) t => poly_area2 zs hzs + t)%Z 0%Z l.
Definition sum_bound (l : list (list (Z * Z) * list (list (Z * Z)))) : Z := fold_right (fun '(zs, hzs) t => Z.abs (trapezoids zs) + holes_area2 hzs + t)%Z 0%Z l.
Theorem C77_polygon_area : forall e k m zz, Forall2 (fun '(zs, hzs) p => exact_ring e k zs (spts p) /\ Forall2 (exact_ring e k) hzs (hpts p)) zz (mg_polys m) ->
  (sum_bound zz <= 2 ^ 53)%Z -> exists r, mg_area m = Ok r /\ fis_finite r = true /\ R_of r = (IZR (sum_area2 zz) / 2 * (bp e * bp e))%R.
Proof.
  intros e k m zz F B.
  assert (forall l, 0 <= holes_area2 l)%Z as TP by (unfold holes_area2; induction l; cbn in *; lia).
  assert (forall l, 0 <= sum_bound l)%Z as SP by (induction l as [|(a & b) l IH]; cbn [sum_bound fold_right]; [lia|]; fold (sum_bound l); pose proof (TP b); lia).
  destruct zz as [|(z0 & h0) zz0] eqn:Ez. { apply Forall2_length in F. unfold mg_area. destruct (mg_polys m); [|discriminate]. cbn [length forN]. exists f0. split; [reflexivity|]. split; [reflexivity|]. change (R_of f0) with 0%R. unfold sum_area2. cbn. lra. }
  rewrite <- Ez in *. assert (-536 <= e <= 485)%Z as He by (rewrite Ez in F; inversion F as [|? ? ? ? Q _]; exact (proj1 (proj1 Q))). clear z0 h0 zz0 Ez.
  unfold mg_area. match goal with |- context [forN _ 0 _ ?b] => set (body := b) end.
  assert (forall ps zz, Forall2 (fun '(zs, hzs) p => exact_ring e k zs (spts p) /\ Forall2 (exact_ring e k) hzs (hpts p)) zz ps ->
    forall lo acc n, skipn lo (mg_polys m) = ps -> grid (2 * e - 1) acc n -> (Z.abs n + sum_bound zz <= 2 ^ 53)%Z -> exists r, forN (length ps) lo acc body = Ok r /\ grid (2 * e - 1) r (n + sum_area2 zz)) as G.
  { clear F B zz. induction 1 as [|(zs & hzs) p zz ps (X & Xh) F IH]; intros lo acc n K Ga Bn.
    - cbn. exists acc. split; [reflexivity|]. now rewrite Z.add_0_r.
    - cbn [length forN]. assert (nth_error (mg_polys m) lo = Some p /\ skipn (S lo) (mg_polys m) = ps) as (N & K').
      { clear - K. revert lo K. induction (mg_polys m) as [|x l IH]; intros [|lo] K; cbn in K; try discriminate; [injection K as -> ->; now split|]. now apply IH. }
      unfold body at 1, idx. rewrite N. cbn [bind]. cbn [sum_bound fold_right] in Bn. fold (sum_bound zz) in Bn. pose proof (SP zz). pose proof (TP hzs).
      destruct (C68_area e k p zs hzs X Xh) as (a & -> & Fa & Ra); [lia|]. cbn [bind].
      assert (grid (2 * e - 1) a (poly_area2 zs hzs)) as Gp.
      { split; [exact Fa|]. rewrite Ra. unfold poly_area2. replace (2 * e - 1)%Z with (e + e + -1)%Z by lia. rewrite !bpow_plus. change (bpow radix2 (-1)) with (/ 2)%R. unfold Rdiv. ring. }
      destruct (IH (S lo) (fadd acc a) (n + poly_area2 zs hzs)%Z K') as (r & Er & Gr).
      + apply grid_add; auto; unfold poly_area2 in *; lia.
      + unfold poly_area2. lia.
      + exists r. split; [exact Er|]. cbn [sum_area2 fold_right]. fold (sum_area2 zz). now rewrite Z.add_assoc. }
  destruct (G (mg_polys m) zz F 0 f0 0%Z) as (r & Er & Fr & Rr); [reflexivity|apply grid_f0|lia|].
  exists r. split; [exact Er|]. split; [exact Fr|]. rewrite Rr, Z.add_0_l. replace (2 * e - 1)%Z with (e + e + -1)%Z by lia. rewrite !bpow_plus. change (bpow radix2 (-1)) with (/ 2)%R. unfold Rdiv. ring.
Qed.
Example C77_example : exists m, mp_made m /\ Forall pt_made (mp_points m) /\ mpts m = [[xy 1 2]; []; [xy 5 (-3)]] /\ Forall nn_xy (concat (mpts m)) /\
  (exists q, mp_point_at usize_chk m 2 = Ok (Some q) /\ ppts q = [xy 5 (-3)]) /\
  mp_coordinates i32_chk m = Ok [xy 1 2; xy 5 (-3); coord_default] /\
  (exists r, mg_area (mg_new [with_hole; with_hole] None) = Ok r /\ feqb r (fofZ 120) = true).
Proof.
  set (ps := [pt_new (xy 1 2) None; pt_default; pt_new (xy 5 (-3)) None]). assert (Forall pt_made ps) as F by (repeat constructor).
  exists (mp_new ps None). split; [now constructor|]. split; [exact F|]. split; [reflexivity|]. split; [repeat constructor|]. split.
  - destruct (C77_point_at usize_chk (mp_new ps None) 2) as (_ & _ & H & _); [now left|exact F|reflexivity|unfold usize_max; lia|]. destruct H as (p & q & N & E & Q); [cbn; lia|]. exists q. split; [exact E|]. rewrite Q. cbn in N. injection N as <-. reflexivity.
  - split; [rewrite C77_point_coordinates; [reflexivity|now left|exact F|cbn; lia]|]. eexists. split; [reflexivity|]. vm_compute. reflexivity.
Qed.
