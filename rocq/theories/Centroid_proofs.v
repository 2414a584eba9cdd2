(** Lemmas on centroids. *)
From Coq Require Import ZArith Bool List Lia Reals Lra.
From Flocq Require Import Core.
From Verif Require Import Base F64 F64Facts F64Err NumLink Coordinate_model Coordinate_spec Envelope_model
  CoordArrays_model CoordArrays_proofs CoordSeq_model CoordSeq_proofs PrecisionModel_model Orientation_model Orientation_props
  Measure_model Measure_spec Measure_proofs Measure_props Matrix_model Geom_model Geom_proofs Polygon_proofs Line_props Polygon_props Centroid_model Centroid_spec.
Import ListNotations.
Open Scope Z_scope.

(** ** Loops over the steps of a chain *)
Definition segs {A} (l : list A) : list (A * A) := combine l (tl l).
Lemma segs_cons {A} (a b : A) l : segs (a :: b :: l) = (a, b) :: segs (b :: l).
Proof. reflexivity. Qed.
Lemma segs_length {A} (l : list A) : length (segs l) = (length l - 1)%nat.
Proof. unfold segs. rewrite combine_length. destruct l; [reflexivity|]. cbn [tl length]. lia. Qed.
Lemma forN_segs_gen {T} (Inv : T -> Prop) (f : T -> Coordinate -> Coordinate -> T) body pts :
  (forall s a b, Inv s -> Inv (f s a b)) ->
  (forall j s a b, Inv s -> nth_error pts j = Some a -> nth_error pts (S j) = Some b -> body j s = Ok (f s a b)) ->
  forall l pre, pts = pre ++ l -> forall s, Inv s ->
  forN (length l - 1) (length pre) s body = Ok (fold_left (fun s ab => f s (fst ab) (snd ab)) (segs l) s) /\
  Inv (fold_left (fun s ab => f s (fst ab) (snd ab)) (segs l) s).
Proof.
  intros Pres B. induction l as [|a l IH]; intros pre E s Is; [split; [reflexivity|exact Is]|].
  destruct l as [|b l]; [split; [reflexivity|exact Is]|].
  cbn [length]. replace (S (S (length l)) - 1)%nat with (S (S (length l) - 1))%nat by lia. cbn [forN].
  rewrite (B (length pre) s a b Is).
  - cbn [bind]. rewrite segs_cons. cbn [fold_left fst snd].
    specialize (IH (pre ++ [a])). rewrite app_length in IH. cbn [length] in IH. rewrite Nat.add_1_r in IH.
    apply IH; [now rewrite <- app_assoc|]. now apply Pres.
  - rewrite E, nth_error_app2, Nat.sub_diag by lia. reflexivity.
  - rewrite E, nth_error_app2 by lia. replace (S (length pre) - length pre)%nat with 1%nat by lia. reflexivity.
Qed.
Lemma forN_segs {T} (f : T -> Coordinate -> Coordinate -> T) pts s :
  forN (length pts - 1) 0 s (fun j s => a <- idx pts j ;; b <- idx pts (S j) ;; Ok (f s a b)) =
  Ok (fold_left (fun s ab => f s (fst ab) (snd ab)) (segs pts) s).
Proof.
  apply (forN_segs_gen (fun _ => True) f) with (pts := pts) (pre := []); auto.
  intros j s' a b _ Ha Hb. unfold idx. now rewrite Ha, Hb.
Qed.

(** ** The accumulators *)
Definition tri_fold (st : Cent) (base : Coordinate) (pts : list Coordinate) (pos : bool) : Cent :=
  fold_left (fun st ab => add_triangle st base (fst ab) (snd ab) pos) (segs pts) st.
Definition line_fold (hypot : f64 -> f64 -> f64) (s : Coordinate * f64) (pts : list Coordinate) : Coordinate * f64 :=
  fold_left (fun s ab => line_step hypot s (fst ab) (snd ab)) (segs pts) s.
Lemma add_triangles_fold st base pts pos : pts <> [] -> cn_base st = Some base ->
  add_triangles st pts pos = Ok (tri_fold st base pts pos).
Proof.
  intros N B. unfold add_triangles. rewrite usub_ok by (destruct pts; cbn; [easy|lia]). cbn [bind].
  apply (forN_segs_gen (fun st => cn_base st = Some base) (fun st a b => add_triangle st base a b pos)) with (pts := pts) (pre := []); auto.
  intros j s a b Is Ha Hb. rewrite Is. unfold idx. now rewrite Ha, Hb.
Qed.
(** The parts of the state the triangles leave alone. *)
Lemma tri_fold_keeps base pts pos : forall st, let st' := tri_fold st base pts pos in
  cn_base st' = cn_base st /\ cn_line st' = cn_line st /\ cn_len st' = cn_len st /\ cn_count st' = cn_count st /\ cn_pts st' = cn_pts st.
Proof.
  unfold tri_fold. induction (segs pts) as [|ab l IH]; intros st; cbn [fold_left]; [auto|].
  cbv zeta in *. destruct (IH (add_triangle st base (fst ab) (snd ab) pos)) as (? & ? & ? & ? & ?).
  repeat split; etransitivity; eassumption || reflexivity.
Qed.
Lemma ring_ccw_ok pts b : is_ccw_vec pts = Ok (Some b) -> ring_ccw pts = Ok b.
Proof. intros H. unfold ring_ccw. now rewrite H. Qed.
Lemma add_lines_fold hypot i st pts : pts <> [] ->
  add_line_segments hypot i st pts =
    let '(sum, ll) := line_fold hypot (cn_line st, f0) pts in
    let st' := mkCn (cn_base st) (cn_area2 st) (cn_cg3 st) sum (fadd (cn_len st) ll) (cn_count st) (cn_pts st) in
    if feqb ll f0 then add_point i st' (hd coord_default pts) else Ok st'.
Proof.
  intros N. unfold add_line_segments. rewrite usub_ok by (destruct pts; cbn; [easy|lia]). cbn [bind].
  rewrite (forN_segs (line_step hypot)). fold (line_fold hypot (cn_line st, f0) pts).
  destruct (line_fold hypot (cn_line st, f0) pts) as [sum ll]. cbn [bind].
  destruct pts as [|p pts]; [easy|]. cbn [length Nat.ltb Nat.leb hd]. rewrite andb_true_r. destruct (feqb ll f0); reflexivity.
Qed.
Lemma add_lines_panics hypot i st : add_line_segments hypot i st [] = Panic.
Proof. reflexivity. Qed.
Lemma add_shell_eq hypot i st p pts b : is_ccw_vec (p :: pts) = Ok (Some b) ->
  add_shell hypot i st (p :: pts) = add_line_segments hypot i (tri_fold (set_area_base_point st p) p (p :: pts) (negb b)) (p :: pts).
Proof.
  intros H. unfold add_shell. cbn [length Nat.ltb Nat.leb idx nth_error bind]. rewrite (ring_ccw_ok _ _ H). cbn [bind].
  rewrite (add_triangles_fold _ p) by (discriminate || (cbn; now rewrite from_coordinate_id)). reflexivity.
Qed.
Lemma add_hole_eq hypot i st base pts b : is_ccw_vec pts = Ok (Some b) -> pts <> [] -> cn_base st = Some base ->
  add_hole hypot i st pts = add_line_segments hypot i (tri_fold st base pts b) pts.
Proof.
  intros H N B. unfold add_hole. rewrite (ring_ccw_ok _ _ H). cbn [bind]. now rewrite (add_triangles_fold _ base).
Qed.
(** Adding lines never fails while the counter has room. *)
Lemma add_lines_ok hypot i st pts : i32_arith i -> pts <> [] -> 0 <= cn_count st < 2147483647 ->
  exists st', add_line_segments hypot i st pts = Ok st' /\ cn_base st' = cn_base st /\ cn_area2 st' = cn_area2 st /\ cn_cg3 st' = cn_cg3 st /\
    cn_count st <= cn_count st' <= cn_count st + 1.
Proof.
  intros A N C. rewrite add_lines_fold by exact N. destruct (line_fold hypot (cn_line st, f0) pts) as [sum ll].
  cbv zeta. destruct (feqb ll f0).
  - unfold add_point. cbn [cn_count]. rewrite (i32_in i) by (assumption || lia). cbn [bind].
    eexists. split; [reflexivity|]. cbn. repeat split; lia.
  - eexists. split; [reflexivity|]. cbn. repeat split; lia.
Qed.

(** ** Polygons as folds over their rings *)
Fixpoint foldM {A T} (f : T -> A -> res T) (l : list A) (s : T) : res T :=
  match l with [] => Ok s | x :: t => s' <- f s x ;; foldM f t s' end.
Lemma forN_list {A T} (f : T -> A -> res T) body (l : list A) :
  (forall j s x, nth_error l j = Some x -> body j s = f s x) ->
  forall s, forN (length l) 0 s body = foldM f l s.
Proof.
  intros B. cut (forall m pre, l = pre ++ m -> forall s, forN (length m) (length pre) s body = foldM f m s).
  { intros H s. now apply (H l []). }
  induction m as [|x m IH]; intros pre E s; [reflexivity|]. cbn [length forN foldM].
  rewrite (B (length pre) s x) by (rewrite E, nth_error_app2, Nat.sub_diag by lia; reflexivity).
  destruct (f s x) as [s'|]; [|reflexivity]. cbn [bind]. specialize (IH (pre ++ [x])).
  rewrite app_length in IH. cbn [length] in IH. rewrite Nat.add_1_r in IH. apply IH. now rewrite <- app_assoc.
Qed.
Lemma add_polygon_fold hypot i st p :
  add_polygon hypot i st p = st <- add_shell hypot i st (spts p) ;; foldM (add_hole hypot i) (hpts p) st.
Proof.
  unfold add_polygon, pg_exterior. rewrite rg_copy_id. cbn [bind]. unfold rg_coordinates, seq_to_array. cbn [rg_seq].
  change (rpts (pg_shell p)) with (spts p).
  destruct (add_shell hypot i st _) as [st'|]; [|reflexivity]. cbn [bind].
  unfold hpts, pg_num_holes. rewrite <- (map_length rpts (pg_holes p)). apply forN_list.
  intros j s x H. rewrite nth_error_map in H. unfold pg_hole_n, idx. destruct (nth_error (pg_holes p) j) as [h|]; [|discriminate].
  injection H as <-. cbn [bind]. rewrite rg_copy_id. reflexivity.
Qed.
Lemma multi_fold hypot i m :
  cn_of_multi_polygon hypot i m = foldM (add_polygon hypot i) (mg_polys m) cn_default.
Proof.
  unfold cn_of_multi_polygon, mg_num_polygons. apply forN_list. intros j s p H. unfold mg_polygon_at, idx. rewrite H. cbn [bind].
  destruct (C68_copy p) as (q & E & Sh & Ho). rewrite E. cbn [bind]. rewrite !add_polygon_fold.
  assert (spts q = spts p) as -> by (unfold spts, rpts; now rewrite Sh).
  assert (hpts q = hpts p) as ->; [|reflexivity].
  unfold hpts, rpts. rewrite <- !(map_map rg_seq scoords). now rewrite Ho.
Qed.

(** ** Triangles from a base point: the sums over a closed chain do not depend on it *)
Definition tri2 (b p q : Z * Z) : Z := (fst p - fst b) * (snd q - snd b) - (fst q - fst b) * (snd p - snd b).
Lemma last_indep {A} (l : list A) : forall c d e, last (c :: l) d = last (c :: l) e.
Proof. induction l as [|x l IH]; intros c d e; [reflexivity|]. change (last (x :: l) d = last (x :: l) e). apply IH. Qed.
Lemma steps_telescope (T G : Z * Z -> Z * Z -> Z) b : (forall p q, T p q = G p q + G q b + G b p) -> (forall p q, G q p = - G p q) ->
  forall l a, steps T (a :: l) = steps G (a :: l) + G (last (a :: l) a) b + G b a.
Proof.
  intros H Anti. induction l as [|c l IH]; intros a.
  - cbn [steps last]. rewrite (Anti b a). ring.
  - change (steps T (a :: c :: l)) with (T a c + steps T (c :: l)). change (steps G (a :: c :: l)) with (G a c + steps G (c :: l)).
    rewrite IH, H. replace (last (a :: c :: l) a) with (last (c :: l) c).
    + rewrite (Anti c b). ring.
    + apply (last_indep l).
Qed.
Lemma steps_telescope_closed (T G : Z * Z -> Z * Z -> Z) b : (forall p q, T p q = G p q + G q b + G b p) -> (forall p q, G q p = - G p q) ->
  forall l, closed_chain l -> steps T l = steps G l.
Proof.
  intros H Anti l (a & m & ->). rewrite (steps_telescope T G b H Anti). 
  replace (last (a :: m ++ [a]) a) with a by (rewrite app_comm_cons, last_last; reflexivity). rewrite (Anti b a). ring.
Qed.
Lemma steps_ext f g l : (forall p q, f p q = g p q) -> steps f l = steps g l.
Proof. intros H. induction l as [|a [|b l] IH]; [reflexivity..|]. cbn [steps] in *. now rewrite H, IH. Qed.
Lemma steps_scale c f l : steps (fun p q => c * f p q) l = c * steps f l.
Proof. induction l as [|a [|b l] IH]; [cbn; ring..|]. cbn [steps] in *. rewrite IH. ring. Qed.
Lemma tri2_area b l : closed_chain l -> steps (tri2 b) l = area2 l.
Proof. apply steps_telescope_closed with b; intros; unfold tri2, cross; ring. Qed.
Lemma tri2_x b l : closed_chain l -> steps (fun p q => tri2 b p q * (fst b + fst p + fst q)) l = moment6x l.
Proof. apply steps_telescope_closed with b; intros; unfold tri2, cross; ring. Qed.
Lemma tri2_y b l : closed_chain l -> steps (fun p q => tri2 b p q * (snd b + snd p + snd q)) l = moment6y l.
Proof. apply steps_telescope_closed with b; intros; unfold tri2, cross; ring. Qed.

(** ** The sums are exact on grids *)
Definition sg (pos : bool) : Z := if pos then 1 else -1.
Definition acc (e : Z) (st : Cent) (a x y : Z) : Prop :=
  grid (2 * e) (cn_area2 st) a /\ grid (3 * e) (cx (cn_cg3 st)) x /\ grid (3 * e) (cy (cn_cg3 st)) y.
Definition small3 (c : Z) (a x y : Z) : Prop := Z.abs a <= c /\ Z.abs x <= c /\ Z.abs y <= c.
Lemma grid_sign (pos : bool) : grid 0 (if pos then f1 else fneg f1) (sg pos).
Proof. destruct pos; [|apply (grid_neg 0 f1 1)]; apply (grid_fofZ 1); cbn; lia. Qed.
Lemma tri_step e k zb b zp p zq q pos st a x y c : -300 <= e <= 300 -> 1 <= k ->
  (forall z, z = zb \/ z = zp \/ z = zq -> Z.abs (fst z) <= k /\ Z.abs (snd z) <= k) ->
  grid e (cx b) (fst zb) -> grid e (cy b) (snd zb) -> grid e (cx p) (fst zp) -> grid e (cy p) (snd zp) -> grid e (cx q) (fst zq) -> grid e (cy q) (snd zq) ->
  acc e st a x y -> small3 c a x y -> c + 24 * (k * k * k) <= 2 ^ 53 ->
  let t := sg pos * tri2 zb zp zq in
  acc e (add_triangle st b p q pos) (a + t) (x + t * (fst zb + fst zp + fst zq)) (y + t * (snd zb + snd zp + snd zq)) /\
  small3 (c + 24 * (k * k * k)) (a + t) (x + t * (fst zb + fst zp + fst zq)) (y + t * (snd zb + snd zp + snd zq)).
Proof.
  intros He Hk W Bx By_ Px Py Qx Qy (Ga & Gx & Gy) (Sa & Sx & Sy) Hc t.
  destruct (W zb ltac:(tauto)) as [Wb1 Wb2]. destruct (W zp ltac:(tauto)) as [Wp1 Wp2]. destruct (W zq ltac:(tauto)) as [Wq1 Wq2]. clear W.
  assert (1 <= k * k) as K2 by nia. assert (k * k <= k * k * k) as K3 by nia. assert (k <= k * k) as K1 by nia.
  assert (0 <= c) as C0 by lia.
  set (d1 := fst zp - fst zb). set (d2 := snd zq - snd zb). set (d3 := fst zq - fst zb). set (d4 := snd zp - snd zb).
  assert (Z.abs d1 <= 2 * k /\ Z.abs d2 <= 2 * k /\ Z.abs d3 <= 2 * k /\ Z.abs d4 <= 2 * k) as (D1 & D2 & D3 & D4).
  { unfold d1, d2, d3, d4. split; [clear - Wb1 Wp1; lia|]. split; [clear - Wb2 Wq2; lia|]. split; [clear - Wb1 Wq1; lia|clear - Wb2 Wp2; lia]. }
  assert (Z.abs (d1 * d2) <= 4 * (k * k)) as M1 by (clear - D1 D2 Hk; rewrite Z.abs_mul; nia).
  assert (Z.abs (d3 * d4) <= 4 * (k * k)) as M2 by (clear - D3 D4 Hk; rewrite Z.abs_mul; nia).
  assert (grid (e + e) (cn_tri_area2 b p q) (tri2 zb zp zq)) as Gt.
  { unfold cn_tri_area2, tri2. fold d1 d2 d3 d4.
    apply grid_sub; [clear - He; lia|clear - M1 M2 K3 Hc C0; lia| |]; apply grid_mul; try (clear - He; lia); try (clear - M1 K3 Hc C0; lia); try (clear - M2 K3 Hc C0; lia);
      apply grid_sub; try (clear - He; lia); try assumption; fold d1 d2 d3 d4;
      first [clear - D1 K1 K2 K3 Hc C0 Hk; lia|clear - D2 K1 K2 K3 Hc C0 Hk; lia|clear - D3 K1 K2 K3 Hc C0 Hk; lia|clear - D4 K1 K2 K3 Hc C0 Hk; lia]. }
  assert (Z.abs (tri2 zb zp zq) <= 8 * (k * k)) as Bt by (unfold tri2; fold d1 d2 d3 d4; clear - M1 M2; lia).
  assert (Z.abs t = Z.abs (tri2 zb zp zq)) as At by (unfold t, sg; clear; destruct pos; lia).
  assert (grid (2 * e) (fmul (if pos then f1 else fneg f1) (cn_tri_area2 b p q)) t) as Gs.
  { replace (2 * e) with (0 + (e + e)) by lia. apply grid_mul; [clear - He; lia|fold t; clear - At Bt K3 Hc C0; lia|apply grid_sign|exact Gt]. }
  set (mx := fst zb + fst zp + fst zq). set (my := snd zb + snd zp + snd zq).
  assert (Z.abs mx <= 3 * k /\ Z.abs my <= 3 * k) as (Mx & My) by (unfold mx, my; split; [clear - Wb1 Wp1 Wq1; lia|clear - Wb2 Wp2 Wq2; lia]).
  assert (grid e (fadd (fadd (cx b) (cx p)) (cx q)) mx) as Gmx by (apply grid_add; [clear - He; lia|unfold mx in Mx; clear - Mx K1 K2 K3 Hc C0 Hk; lia| |assumption]; apply grid_add; [clear - He; lia|clear - Wb1 Wp1 K1 K2 K3 Hc C0 Hk; lia|assumption|assumption]).
  assert (grid e (fadd (fadd (cy b) (cy p)) (cy q)) my) as Gmy by (apply grid_add; [clear - He; lia|unfold my in My; clear - My K1 K2 K3 Hc C0 Hk; lia| |assumption]; apply grid_add; [clear - He; lia|clear - Wb2 Wp2 K1 K2 K3 Hc C0 Hk; lia|assumption|assumption]).
  assert (Z.abs (t * mx) <= 24 * (k * k * k) /\ Z.abs (t * my) <= 24 * (k * k * k)) as (Tx & Ty).
  { rewrite !Z.abs_mul, At. split; (apply Z.le_trans with (8 * (k * k) * (3 * k)); [apply Z.mul_le_mono_nonneg; try apply Z.abs_nonneg; assumption|clear; lia]). }
  split; [|unfold small3; split; [clear - Sa At Bt K3; lia|split; [clear - Sx Tx; lia|clear - Sy Ty; lia]]].
  unfold acc, add_triangle, centroid3. cbn [cn_area2 cn_cg3 set_x set_y cx cy new_xy].
  replace (3 * e) with (2 * e + e) in * by lia.
  split; [apply grid_add; [clear - He; lia|clear - Sa At Bt K3 Hc; lia|assumption|assumption]|].
  split; apply grid_add; try (clear - He; lia); try assumption; [clear - Sx Tx Hc; lia| |clear - Sy Ty Hc; lia|]; apply grid_mul; try (clear - He; lia); try assumption;
    [clear - Tx Hc C0; lia|clear - Ty Hc C0; lia].
Qed.
Lemma tri_acc e k zb b pos : -300 <= e <= 300 -> 1 <= k -> Z.abs (fst zb) <= k /\ Z.abs (snd zb) <= k -> grid e (cx b) (fst zb) -> grid e (cy b) (snd zb) ->
  forall zs cs, on_grid e zs cs -> within k zs ->
  forall st a x y c, acc e st a x y -> small3 c a x y -> c + Z.of_nat (length zs) * (24 * (k * k * k)) <= 2 ^ 53 ->
  let t f := sg pos * steps (fun p q => tri2 zb p q * f p q) zs in
  let a' := a + t (fun _ _ => 1) in let x' := x + t (fun p q => fst zb + fst p + fst q) in let y' := y + t (fun p q => snd zb + snd p + snd q) in
  acc e (tri_fold st b cs pos) a' x' y' /\ small3 (c + Z.of_nat (length zs) * (24 * (k * k * k))) a' x' y'.
Proof.
  intros He Hk Wb Bx By_. assert (0 <= k * k * k) as K0 by nia.
  induction zs as [|zp zs IH]; intros cs G W st a x y c A Sm B.
  - inversion G; subst. cbn [steps length]. cbv zeta. rewrite !Z.mul_0_r, !Z.add_0_r. split; [exact A|]. unfold small3 in *. lia.
  - inversion G as [|? p ? cs' [Gp1 Gp2] G']; subst. inversion W as [|? ? Wp W']; subst.
    destruct zs as [|zq zs].
    + inversion G'; subst. cbn [steps]. cbv zeta. rewrite !Z.mul_0_r, !Z.add_0_r. split; [exact A|].
      unfold small3 in *. cbn [length]. lia.
    + inversion G' as [|? q ? cs'' [Gq1 Gq2] G'']; subst. inversion W' as [|? ? Wq W'']; subst.
      destruct (tri_step e k zb b zp p zq q pos st a x y c) as (A1 & S1); try assumption.
      * intros z [->|[->| ->]]; assumption.
      * cbn [length] in B. rewrite !Nat2Z.inj_succ in B. nia.
      * unfold tri_fold. rewrite segs_cons. cbn [fold_left fst snd]. fold (tri_fold (add_triangle st b p q pos) b (q :: cs'') pos).
        destruct (IH (q :: cs'') G' W' _ _ _ _ _ A1 S1) as (A2 & S2).
        { cbn [length] in B |- *. rewrite !Nat2Z.inj_succ in *. lia. }
        cbv zeta in *. cbn [steps] in *.
        split.
        -- destruct A2 as (P1 & P2_ & P3_). unfold acc. 
           repeat match goal with |- grid _ _ _ /\ _ => split end.
           ++ eapply eq_ind; [exact P1|]. ring.
           ++ eapply eq_ind; [exact P2_|]. ring.
           ++ eapply eq_ind; [exact P3_|]. ring.
        -- destruct S2 as (P1 & P2_ & P3_). change (length (zp :: zq :: zs)) with (S (length (zq :: zs))). rewrite Nat2Z.inj_succ. unfold small3.
           split; [eapply Z.le_trans; [|etransitivity; [exact P1|lia]]|split; [eapply Z.le_trans; [|etransitivity; [exact P2_|lia]]|
             eapply Z.le_trans; [|etransitivity; [exact P3_|lia]]]]; apply Z.eq_le_incl; f_equal; ring.
Qed.
Lemma tri_acc_closed e k zb b pos zs cs : -300 <= e <= 300 -> 1 <= k -> Z.abs (fst zb) <= k /\ Z.abs (snd zb) <= k -> grid e (cx b) (fst zb) -> grid e (cy b) (snd zb) ->
  on_grid e zs cs -> within k zs -> closed_chain zs ->
  forall st a x y c, acc e st a x y -> small3 c a x y -> c + Z.of_nat (length zs) * (24 * (k * k * k)) <= 2 ^ 53 ->
  let t f := sg pos * f zs in
  acc e (tri_fold st b cs pos) (a + t area2) (x + t moment6x) (y + t moment6y) /\
  small3 (c + Z.of_nat (length zs) * (24 * (k * k * k))) (a + t area2) (x + t moment6x) (y + t moment6y).
Proof.
  intros He Hk Wb Bx By_ G W Cl st a x y c A Sm B. cbv zeta.
  destruct (tri_acc e k zb b pos He Hk Wb Bx By_ zs cs G W st a x y c A Sm B) as (A' & S'). cbv zeta in *.
  rewrite (steps_ext (fun p q => tri2 zb p q * 1) (tri2 zb)) in A', S' by (intros; ring).
  rewrite tri2_area, tri2_x, tri2_y in A', S' by assumption. now split.
Qed.
(** A ring with what the orientation test says about it. *)
Definition ring_ok (e k : Z) (r : bool * list (Z * Z)) (cs : list Coordinate) : Prop :=
  is_ccw_vec cs = Ok (Some (fst r)) /\ closed_chain (snd r) /\ on_grid e (snd r) cs /\ within k (snd r).
Lemma ring_ok_cons e k r cs : ring_ok e k r cs -> exists z zs c t, snd r = z :: zs /\ cs = c :: t /\ grid e (cx c) (fst z) /\ grid e (cy c) (snd z) /\
  Z.abs (fst z) <= k /\ Z.abs (snd z) <= k.
Proof.
  intros (_ & (a & m & E) & G & W). rewrite E in *. inversion G as [|? c ? t [G1 G2] _]; subst. inversion W as [|? ? [W1 W2] _]; subst.
  exists a, (m ++ [a]), c, t. auto 10.
Qed.
Definition hole_sum (f : list (Z * Z) -> Z) (hs : list (bool * list (Z * Z))) : Z := total (fun r => sg (fst r) * f (snd r)) hs.
Definition points_of (hs : list (bool * list (Z * Z))) : Z := total (fun r => Z.of_nat (length (snd r))) hs.
Lemma total_cons {A} (f : A -> Z) x l : total f (x :: l) = f x + total f l.
Proof. reflexivity. Qed.
Lemma points_nonneg hs : 0 <= points_of hs.
Proof. induction hs as [|r hs IH]; [apply Z.le_refl|]. unfold points_of. rewrite total_cons. fold (points_of hs). lia. Qed.
Lemma holes_acc hypot i e k hs css : i32_arith i -> -300 <= e <= 300 -> 1 <= k -> Forall2 (ring_ok e k) hs css ->
  forall zb b, Z.abs (fst zb) <= k /\ Z.abs (snd zb) <= k -> grid e (cx b) (fst zb) -> grid e (cy b) (snd zb) ->
  forall st a x y c, cn_base st = Some b -> acc e st a x y -> small3 c a x y -> c + points_of hs * (24 * (k * k * k)) <= 2 ^ 53 ->
  0 <= cn_count st -> cn_count st + Z.of_nat (length hs) <= 2147483647 ->
  exists st', foldM (add_hole hypot i) css st = Ok st' /\
    acc e st' (a + hole_sum area2 hs) (x + hole_sum moment6x hs) (y + hole_sum moment6y hs) /\
    small3 (c + points_of hs * (24 * (k * k * k))) (a + hole_sum area2 hs) (x + hole_sum moment6x hs) (y + hole_sum moment6y hs) /\
    0 <= cn_count st' <= cn_count st + Z.of_nat (length hs).
Proof.
  intros I He Hk F zb b Wb Bx By_. assert (0 <= k * k * k) as K0 by nia.
  induction F as [|r cs hs css R F IH]; intros st a x y c Bs A Sm B C0 C1.
  - exists st. split; [reflexivity|]. unfold hole_sum, points_of, total. cbn [map fold_right length]. rewrite !Z.add_0_r. split; [exact A|]. split; [unfold small3 in *; lia|]. lia.
  - destruct (ring_ok_cons _ _ _ _ R) as (z & zs & c0 & t & Ez & Ec & _). destruct R as (Ccw & Cl & G & W).
    cbn [foldM]. unfold points_of in B. rewrite total_cons in B. fold (points_of hs) in B. pose proof (points_nonneg hs) as P0.
    cbn [length] in C1. rewrite Nat2Z.inj_succ in C1.
    rewrite (add_hole_eq hypot i st b cs _ Ccw) by (exact Bs || now rewrite Ec).
    destruct (tri_acc_closed e k zb b (fst r) (snd r) cs He Hk Wb Bx By_ G W Cl st a x y c A Sm) as (A1 & S1); [nia|]. cbv zeta in A1, S1.
    destruct (tri_fold_keeps b cs (fst r) st) as (K1 & _ & _ & K4 & _).
    destruct (add_lines_ok hypot i (tri_fold st b cs (fst r)) cs) as (st1 & E1 & B1 & A1' & G1 & Ct); [exact I|now rewrite Ec|rewrite K4; lia|].
    rewrite E1. cbn [bind].
    destruct (IH st1 (a + sg (fst r) * area2 (snd r)) (x + sg (fst r) * moment6x (snd r)) (y + sg (fst r) * moment6y (snd r))
      (c + Z.of_nat (length (snd r)) * (24 * (k * k * k)))) as (st2 & E2 & A2 & S2 & C2).
    + rewrite B1, K1. exact Bs.
    + unfold acc. rewrite A1', G1. exact A1.
    + exact S1.
    + lia.
    + lia.
    + lia.
    + exists st2. split; [exact E2|]. unfold hole_sum, points_of. rewrite !total_cons. fold (hole_sum area2 hs) (hole_sum moment6x hs) (hole_sum moment6y hs) (points_of hs).
      rewrite !Z.add_assoc. rewrite Z.mul_add_distr_r, Z.add_assoc. split; [exact A2|]. split; [exact S2|]. cbn [length]. lia.
Qed.
(** One polygon. *)
Definition poly_sum (f : list (Z * Z) -> Z) (r : (bool * list (Z * Z)) * list (bool * list (Z * Z))) : Z :=
  sg (negb (fst (fst r))) * f (snd (fst r)) + hole_sum f (snd r).
Definition poly_points (r : (bool * list (Z * Z)) * list (bool * list (Z * Z))) : Z := Z.of_nat (length (snd (fst r))) + points_of (snd r).
Definition poly_rings (r : (bool * list (Z * Z)) * list (bool * list (Z * Z))) : Z := 1 + Z.of_nat (length (snd r)).
Definition poly_ok (e k : Z) (r : (bool * list (Z * Z)) * list (bool * list (Z * Z))) (p : GPoly) : Prop :=
  ring_ok e k (fst r) (spts p) /\ Forall2 (ring_ok e k) (snd r) (hpts p).
Lemma poly_acc hypot i e k r p : i32_arith i -> -300 <= e <= 300 -> 1 <= k -> poly_ok e k r p ->
  forall st a x y c, acc e st a x y -> small3 c a x y -> c + poly_points r * (24 * (k * k * k)) <= 2 ^ 53 ->
  0 <= cn_count st -> cn_count st + poly_rings r <= 2147483647 ->
  exists st', add_polygon hypot i st p = Ok st' /\
    acc e st' (a + poly_sum area2 r) (x + poly_sum moment6x r) (y + poly_sum moment6y r) /\
    small3 (c + poly_points r * (24 * (k * k * k))) (a + poly_sum area2 r) (x + poly_sum moment6x r) (y + poly_sum moment6y r) /\
    0 <= cn_count st' <= cn_count st + poly_rings r.
Proof.
  intros I He Hk (R & F) st a x y c A Sm B C0 C1. assert (0 <= k * k * k) as K0 by nia.
  destruct r as [s hs]. cbn [fst snd] in *. unfold poly_points, poly_rings in *. cbn [fst snd] in *.
  destruct (ring_ok_cons _ _ _ _ R) as (z & zs & c0 & t & Ez & Ec & Gx & Gy & Wz). destruct R as (Ccw & Cl & G & W).
  rewrite add_polygon_fold. rewrite Ec in *. rewrite (add_shell_eq hypot i st c0 t _ Ccw). pose proof (points_nonneg hs) as P0.
  assert (acc e (set_area_base_point st c0) a x y) as A0 by exact A.
  destruct (tri_acc_closed e k z c0 (negb (fst s)) (snd s) (c0 :: t) He Hk Wz Gx Gy G W Cl _ a x y c A0 Sm) as (A1 & S1); [nia|]. cbv zeta in A1, S1.
  destruct (tri_fold_keeps c0 (c0 :: t) (negb (fst s)) (set_area_base_point st c0)) as (K1 & _ & _ & K4 & _).
  destruct (add_lines_ok hypot i (tri_fold (set_area_base_point st c0) c0 (c0 :: t) (negb (fst s))) (c0 :: t)) as (st1 & E1 & B1 & A1' & G1 & Ct); [exact I|discriminate|rewrite K4; cbn [set_area_base_point cn_count]; lia|].
  rewrite K4 in Ct. cbn [set_area_base_point cn_count] in Ct. rewrite E1. cbn [bind].
  destruct (holes_acc hypot i e k hs (hpts p) I He Hk F z c0 Wz Gx Gy st1 (a + sg (negb (fst s)) * area2 (snd s)) (x + sg (negb (fst s)) * moment6x (snd s)) (y + sg (negb (fst s)) * moment6y (snd s))
      (c + Z.of_nat (length (snd s)) * (24 * (k * k * k)))) as (st2 & E2 & A2 & S2 & C2).
  - rewrite B1, K1. cbn. now rewrite from_coordinate_id.
  - unfold acc. rewrite A1', G1. exact A1.
  - exact S1.
  - lia.
  - lia.
  - lia.
  - exists st2. split; [exact E2|]. unfold poly_sum. cbn [fst snd]. rewrite !Z.add_assoc, Z.mul_add_distr_r, Z.add_assoc.
    split; [exact A2|]. split; [exact S2|]. lia.
Qed.
(** Several polygons. *)
Lemma polys_acc hypot i e k rs ps : i32_arith i -> -300 <= e <= 300 -> 1 <= k -> Forall2 (poly_ok e k) rs ps ->
  forall st a x y c, acc e st a x y -> small3 c a x y -> c + total poly_points rs * (24 * (k * k * k)) <= 2 ^ 53 ->
  0 <= cn_count st -> cn_count st + total poly_rings rs <= 2147483647 ->
  exists st', foldM (add_polygon hypot i) ps st = Ok st' /\
    acc e st' (a + total (poly_sum area2) rs) (x + total (poly_sum moment6x) rs) (y + total (poly_sum moment6y) rs) /\
    small3 (c + total poly_points rs * (24 * (k * k * k))) (a + total (poly_sum area2) rs) (x + total (poly_sum moment6x) rs) (y + total (poly_sum moment6y) rs).
Proof.
  intros I He Hk F. assert (0 <= k * k * k) as K0 by nia.
  induction F as [|r p rs ps R F IH]; intros st a x y c A Sm B C0 C1.
  - exists st. split; [reflexivity|]. unfold total. cbn [map fold_right]. rewrite !Z.add_0_r. split; [exact A|]. unfold small3 in *. lia.
  - rewrite !total_cons in *. cbn [foldM].
    assert (forall l, 0 <= total poly_points l /\ 0 <= total poly_rings l) as P0.
    { clear. induction l as [|r l (H1 & H2)]; [split; apply Z.le_refl|]. rewrite !total_cons. unfold poly_points at 1, poly_rings at 1. pose proof (points_nonneg (snd r)). lia. }
    destruct (P0 rs) as (P1 & P3_).
    destruct (poly_acc hypot i e k r p I He Hk R st a x y c A Sm) as (st1 & E1 & A1 & S1 & C2); [nia|lia|lia|].
    rewrite E1. cbn [bind].
    destruct (IH st1 _ _ _ _ A1 S1) as (st2 & E2 & A2 & S2); [lia|lia|lia|].
    exists st2. split; [exact E2|]. rewrite !Z.add_assoc, Z.mul_add_distr_r, Z.add_assoc. now split.
Qed.

(** ** The final divisions *)
Lemma bp_pos k : (0 < bp k)%R.
Proof. apply bpow_gt_0. Qed.
Lemma IZR_abs_ge1 n : n <> 0 -> (1 <= Rabs (IZR n))%R.
Proof. intros H. rewrite <- abs_IZR. apply IZR_le. lia. Qed.
Lemma IZR_abs_le53 n : Z.abs n <= 2 ^ 53 -> (Rabs (IZR n) <= bp 53)%R.
Proof. intros H. rewrite <- abs_IZR. change (bp 53) with (IZR (2 ^ 53)). now apply IZR_le. Qed.
Lemma three_R : R_of (fofZ 3) = 3%R.
Proof. rewrite (proj2 (grid_fofZ 3 ltac:(cbn; lia))). cbn. lra. Qed.
Lemma divisions e m a M A : -300 <= e <= 300 -> grid (3 * e) M m -> grid (2 * e) A a -> a <> 0 -> Z.abs m <= 2 ^ 53 -> Z.abs a <= 2 ^ 53 ->
  near2 (fdiv (fdiv M (fofZ 3)) A) (IZR m / (3 * IZR a) * bp e)%R.
Proof.
  intros He [FM RM] [FA RA] Ha Bm Ba.
  pose proof (bp_pos (3 * e)) as P3_. pose proof (bp_pos (2 * e)) as P2_. pose proof (bp_pos e) as P1_. pose proof (IZR_abs_ge1 a Ha) as La.
  pose proof (IZR_abs_le53 m Bm) as Lm. pose proof (IZR_abs_le53 a Ba) as La'.
  assert (IZR a <> 0)%R as Na by (intros E; rewrite E, Rabs_R0 in La; lra).
  assert (R_of A <> 0)%R as NA by (rewrite RA; apply Rmult_integral_contrapositive_currified; [exact Na|lra]).
  assert (Rabs (R_of A) = Rabs (IZR a) * bp (2 * e))%R as AA by (rewrite RA, Rabs_mult, (Rabs_pos_eq (bp (2 * e))); lra).
  assert (bp (2 * e) <= Rabs (R_of A) <= bp (2 * e + 53))%R as [A1 A2].
  { rewrite AA, bpow_plus. split; [nra|]. rewrite Rmult_comm. apply Rmult_le_compat_l; lra. }
  set (x := (IZR m / (3 * IZR a) * bp e)%R).
  assert (x = R_of M / 3 / R_of A)%R as Ex.
  { unfold x. rewrite RM, RA. replace (3 * e) with (2 * e + e) by lia. rewrite bpow_plus. field. split; [lra|exact Na]. }
  assert (Rabs (R_of M) <= bp (3 * e + 53))%R as UM.
  { rewrite RM, Rabs_mult, (Rabs_pos_eq (bp (3 * e))), bpow_plus by lra. rewrite Rmult_comm. apply Rmult_le_compat_l; lra. }
  assert (Rabs (R_of M / 3) <= bp (3 * e + 53))%R as UM3.
  { unfold Rdiv. rewrite Rabs_mult, (Rabs_pos_eq (/ 3)) by lra. pose proof (Rabs_pos (R_of M)). lra. }
  assert (R_of M / 3 = 0 \/ bp (3 * e - 2) <= Rabs (R_of M / 3))%R as LM3.
  { destruct (Z.eq_dec m 0) as [->|Nm]; [left; rewrite RM; field|right].
    unfold Rdiv. rewrite Rabs_mult, (Rabs_pos_eq (/ 3)) by lra. rewrite RM, Rabs_mult, (Rabs_pos_eq (bp (3 * e))) by lra.
    pose proof (IZR_abs_ge1 m Nm). unfold Z.sub. rewrite bpow_plus. change (bp (- (2))) with (/ 4)%R. nra. }
  assert (Rabs (RN (R_of M / 3)) <= bp (3 * e + 53))%R as U1 by (apply RN_abs_le; [lia|exact UM3]).
  destruct (fdiv_R M (fofZ 3)) as [F1 R1]; [exact FM|rewrite three_R; lra|rewrite three_R; eapply Rle_lt_trans; [exact U1|apply bpow_lt; lia]|].
  rewrite three_R in R1. set (q := R_of (fdiv M (fofZ 3))) in *.
  assert (Rabs (q - R_of M / 3) <= u53 * Rabs (R_of M / 3))%R as E1.
  { rewrite R1. apply RN_rel. destruct LM3 as [Z0|L]; [now left|right]. eapply Rle_trans; [|exact L]. apply bpow_le. lia. }
  pose proof u53_pos as U0. pose proof u53_small as U1_.
  assert (q = 0 \/ bp (3 * e - 3) <= Rabs q)%R as Lq.
  { destruct LM3 as [Z0|L].
    - left. rewrite Z0, Rminus_0_r, Rabs_R0, Rmult_0_r in E1. pose proof (Rabs_pos q). destruct (Req_dec q 0) as [->|N]; [reflexivity|]. pose proof (Rabs_pos_lt q N). lra.
    - right. assert (bp (3 * e - 2) = 2 * bp (3 * e - 3))%R as E2.
      { replace (3 * e - 2) with (3 * e - 3 + 1) by lia. apply bp_S. }
      pose proof (Rabs_triang_inv (R_of M / 3) (R_of M / 3 - q)) as T. replace (R_of M / 3 - (R_of M / 3 - q))%R with q in T by ring.
      rewrite (Rabs_minus_sym (R_of M / 3) q) in T.
      pose proof (Rmult_le_compat_r (Rabs (R_of M / 3)) _ _ (Rabs_pos _) U1_) as U2_. pose proof (bp_pos (3 * e - 3)). lra. }
  assert (0 < Rabs (R_of A))%R as PA by lra.
  assert (Rabs (q / R_of A) <= bp (e + 53))%R as Uq.
  { unfold Rdiv. rewrite Rabs_mult, Rabs_inv. apply Rmult_le_reg_r with (Rabs (R_of A)); [exact PA|]. rewrite Rmult_assoc, Rinv_l, Rmult_1_r by lra.
    rewrite R1 at 1. eapply Rle_trans; [exact U1|]. replace (3 * e + 53) with ((e + 53) + 2 * e) by lia. rewrite bpow_plus. apply Rmult_le_compat_l; [left; apply bp_pos|exact A1]. }
  destruct (fdiv_R (fdiv M (fofZ 3)) A F1 NA) as [F2_ R2_].
  { fold q. eapply Rle_lt_trans; [apply RN_abs_le; [|exact Uq]; lia|apply bpow_lt; lia]. }
  fold q in R2_. split; [exact F2_|]. rewrite R2_.
  assert (Rabs (RN (q / R_of A) - q / R_of A) <= u53 * Rabs (q / R_of A))%R as E2.
  { apply RN_rel. destruct Lq as [->|L]; [left; unfold Rdiv; ring|right].
    unfold Rdiv. rewrite Rabs_mult, Rabs_inv. apply Rmult_le_reg_r with (Rabs (R_of A)); [exact PA|]. rewrite Rmult_assoc, Rinv_l, Rmult_1_r by lra.
    eapply Rle_trans; [|exact L]. eapply Rle_trans; [apply Rmult_le_compat_l; [left; apply bp_pos|exact A2]|]. rewrite <- bpow_plus. apply bpow_le. lia. }
  assert (Rabs (q / R_of A - x) <= u53 * Rabs x)%R as E3.
  { rewrite Ex. replace (q / R_of A - R_of M / 3 / R_of A)%R with ((q - R_of M / 3) * / R_of A)%R by (field; exact NA).
    change (R_of M / 3 / R_of A)%R with (R_of M / 3 * / R_of A)%R. rewrite (Rabs_mult (q - R_of M / 3)), (Rabs_mult (R_of M / 3) (/ R_of A)).
    rewrite <- Rmult_assoc. apply Rmult_le_compat_r; [apply Rabs_pos|exact E1]. }
  replace (RN (q / R_of A) - x)%R with ((RN (q / R_of A) - q / R_of A) + (q / R_of A - x))%R by ring.
  eapply Rle_trans; [apply Rabs_triang|].
  assert (Rabs (q / R_of A) <= Rabs x + u53 * Rabs x)%R as E4.
  { replace (q / R_of A)%R with (x + (q / R_of A - x))%R by ring. eapply Rle_trans; [apply Rabs_triang|]. lra. }
  pose proof (Rabs_pos x). nra.
Qed.
Lemma area_test e A a : grid (2 * e) A a -> a <> 0 -> fltb f0 (fabs A) = true.
Proof. intros G N. rewrite (grid_ltb (2 * e) f0 (fabs A) 0 (Z.abs a) (grid_f0 _) (grid_abs _ _ _ G)). apply Z.ltb_lt. lia. Qed.
Lemma area_test_0 e A : grid (2 * e) A 0 -> fltb f0 (fabs A) = false.
Proof. intros G. now rewrite (grid_ltb (2 * e) f0 (fabs A) 0 (Z.abs 0) (grid_f0 _) (grid_abs _ _ _ G)). Qed.
Lemma centroid_of_acc e st a x y : -300 <= e <= 300 -> acc e st a x y -> small3 (2 ^ 53) a x y -> a <> 0 ->
  exists c, cn_centroid st = Some c /\ near2 (cx c) (IZR x / (3 * IZR a) * bp e) /\ near2 (cy c) (IZR y / (3 * IZR a) * bp e) /\ cz c = fnan /\ cm c = fnan.
Proof.
  intros He (Ga & Gx & Gy) (Sa & Sx & Sy) Na. unfold cn_centroid. rewrite (area_test e _ a Ga Na). eexists. split; [reflexivity|]. cbn [new_xy cx cy cz cm].
  split; [now apply divisions|split; [now apply divisions|split; reflexivity]].
Qed.

(** ** Lines: exact on horizontal and vertical steps *)
Definition lacc (e : Z) (s : Coordinate * f64) (x y l : Z) : Prop :=
  grid (2 * e - 1) (cx (fst s)) x /\ grid (2 * e - 1) (cy (fst s)) y /\ grid e (snd s) l.
Lemma rectilinear_tl a l : rectilinear (a :: l) -> rectilinear l.
Proof. intros H l1 x y l2 E. apply (H (a :: l1) x y l2). now rewrite E. Qed.
Lemma rectilinear_hd a b l : rectilinear (a :: b :: l) -> fst a = fst b \/ snd a = snd b.
Proof. intros H. now apply (H [] a b l). Qed.
Lemma axis_length hypot e zp p zq q : -300 <= e <= 300 -> hypot_axis hypot -> fst zp = fst zq \/ snd zp = snd zq ->
  Z.abs (fst zp - fst zq) <= 2 ^ 53 -> Z.abs (snd zp - snd zq) <= 2 ^ 53 ->
  grid e (cx p) (fst zp) -> grid e (cy p) (snd zp) -> grid e (cx q) (fst zq) -> grid e (cy q) (snd zq) ->
  grid e (distance hypot p q) (step_len zp zq).
Proof.
  intros He Ha Hr B1 B2 Px Py Qx Qy. unfold distance, step_len.
  assert (grid e (fsub (cx p) (cx q)) (fst zp - fst zq)) as [FX RX] by (apply grid_sub; try lia; assumption).
  assert (grid e (fsub (cy p) (cy q)) (snd zp - snd zq)) as [FY RY] by (apply grid_sub; try lia; assumption).
  destruct Hr as [E|E].
  - destruct (Ha (fsub (cy p) (cy q)) (fsub (cx p) (cx q)) FY) as (_ & ->); [rewrite RX, E, Z.sub_diag; ring|exact FX|].
    rewrite E, Z.sub_diag. replace (Z.abs 0 + Z.abs (snd zq - snd zp)) with (Z.abs (snd zp - snd zq)) by lia. apply grid_abs. now split.
  - destruct (Ha (fsub (cx p) (cx q)) (fsub (cy p) (cy q)) FX) as (-> & _); [rewrite RY, E, Z.sub_diag; ring|exact FY|].
    rewrite E, Z.sub_diag. replace (Z.abs (fst zq - fst zp) + Z.abs 0) with (Z.abs (fst zp - fst zq)) by lia. apply grid_abs. now split.
Qed.
Lemma f2_R : R_of f2 = bp 1.
Proof. change f2 with (fofZ 2). rewrite (proj2 (grid_fofZ 2 ltac:(cbn; lia))). cbn. lra. Qed.
Lemma line_step_acc hypot e k zp p zq q s x y l c : -300 <= e <= 300 -> 1 <= k -> hypot_axis hypot -> fst zp = fst zq \/ snd zp = snd zq ->
  Z.abs (fst zp) <= k /\ Z.abs (snd zp) <= k -> Z.abs (fst zq) <= k /\ Z.abs (snd zq) <= k ->
  grid e (cx p) (fst zp) -> grid e (cy p) (snd zp) -> grid e (cx q) (fst zq) -> grid e (cy q) (snd zq) ->
  lacc e s x y l -> small3 c x y l -> c + 4 * (k * k) <= 2 ^ 53 ->
  let d := step_len zp zq in
  lacc e (line_step hypot s p q) (x + d * (fst zp + fst zq)) (y + d * (snd zp + snd zq)) (l + d) /\
  small3 (c + 4 * (k * k)) (x + d * (fst zp + fst zq)) (y + d * (snd zp + snd zq)) (l + d).
Proof.
  intros He Hk Ha Hr (Wp1 & Wp2) (Wq1 & Wq2) Px Py Qx Qy (Lx & Ly & Ll) (Sx & Sy & Sl) B d.
  assert (k <= k * k) as K1 by nia. assert (0 <= c) as C0 by lia.
  assert (0 <= d <= 2 * k) as (D0 & D1) by (unfold d, step_len; clear - Hr Wp1 Wp2 Wq1 Wq2; destruct Hr; lia).
  assert (grid e (distance hypot p q) d) as Gd.
  { apply axis_length; try assumption; [clear - Wp1 Wq1 K1 B C0 Hk; lia|clear - Wp2 Wq2 K1 B C0 Hk; lia]. }
  assert (Z.abs (fst zp + fst zq) <= 2 * k) as Mx by (clear - Wp1 Wq1; lia).
  assert (Z.abs (snd zp + snd zq) <= 2 * k) as My by (clear - Wp2 Wq2; lia).
  assert (Z.abs (d * (fst zp + fst zq)) <= 4 * (k * k)) as Tx by (clear - D0 D1 Mx Hk; rewrite Z.abs_mul, (Z.abs_eq d) by lia; nia).
  assert (Z.abs (d * (snd zp + snd zq)) <= 4 * (k * k)) as Ty by (clear - D0 D1 My Hk; rewrite Z.abs_mul, (Z.abs_eq d) by lia; nia).
  split; [|unfold small3; split; [clear - Sx Tx; lia|split; [clear - Sy Ty; lia|clear - Sl D0 D1 K1 Hk; lia]]].
  destruct s as [sum ll]. cbn [fst snd] in *. unfold line_step.
  rewrite (grid_eqb e _ _ d 0 Gd (grid_f0 e)). destruct (Z.eqb_spec d 0) as [Ez|Nz].
  - rewrite Ez, !Z.mul_0_l, !Z.add_0_r. split; [exact Lx|split; assumption].
  - cbv zeta. unfold lacc. cbn [fst snd set_x set_y cx cy].
    assert (grid (e - 1) (fdiv (fadd (cx p) (cx q)) f2) (fst zp + fst zq)) as Gx.
    { apply grid_div2; [clear - He; lia|clear - Mx K1 B C0 Hk; lia| |apply f2_R]. apply grid_add; try assumption; [clear - He; lia|clear - Mx K1 B C0 Hk; lia]. }
    assert (grid (e - 1) (fdiv (fadd (cy p) (cy q)) f2) (snd zp + snd zq)) as Gy.
    { apply grid_div2; [clear - He; lia|clear - My K1 B C0 Hk; lia| |apply f2_R]. apply grid_add; try assumption; [clear - He; lia|clear - My K1 B C0 Hk; lia]. }
    replace (2 * e - 1) with (e + (e - 1)) in * by lia.
    split; [|split].
    + apply grid_add; [clear - He; lia|clear - Sx Tx B; lia|assumption|]. apply grid_mul; try assumption; [clear - He; lia|clear - Tx B C0; lia].
    + apply grid_add; [clear - He; lia|clear - Sy Ty B; lia|assumption|]. apply grid_mul; try assumption; [clear - He; lia|clear - Ty B C0; lia].
    + apply grid_add; [clear - He; lia|clear - Sl D0 D1 K1 B Hk; lia|assumption|assumption].
Qed.
Lemma line_acc hypot e k : -300 <= e <= 300 -> 1 <= k -> hypot_axis hypot ->
  forall zs cs, on_grid e zs cs -> within k zs -> rectilinear zs ->
  forall s x y l c, lacc e s x y l -> small3 c x y l -> c + Z.of_nat (length zs) * (4 * (k * k)) <= 2 ^ 53 ->
  lacc e (line_fold hypot s cs) (x + line2x zs) (y + line2y zs) (l + line_len zs) /\
  small3 (c + Z.of_nat (length zs) * (4 * (k * k))) (x + line2x zs) (y + line2y zs) (l + line_len zs).
Proof.
  intros He Hk Ha. assert (0 <= k * k) as K0 by nia. unfold line2x, line2y, line_len.
  induction zs as [|zp zs IH]; intros cs G W Rl s x y l c A Sm B.
  - inversion G; subst. cbn [steps length]. rewrite !Z.add_0_r. split; [exact A|]. unfold small3 in *. lia.
  - inversion G as [|? p ? cs' [Gp1 Gp2] G']; subst. inversion W as [|? ? Wp W']; subst.
    destruct zs as [|zq zs].
    + inversion G'; subst. cbn [steps]. rewrite !Z.add_0_r. split; [exact A|]. unfold small3 in *. cbn [length]. lia.
    + inversion G' as [|? q ? cs'' [Gq1 Gq2] G'']; subst. inversion W' as [|? ? Wq W'']; subst.
      destruct (line_step_acc hypot e k zp p zq q s x y l c) as (A1 & S1); try assumption.
      * exact (rectilinear_hd _ _ _ Rl).
      * cbn [length] in B. rewrite !Nat2Z.inj_succ in B. nia.
      * unfold line_fold. rewrite segs_cons. cbn [fold_left fst snd]. fold (line_fold hypot (line_step hypot s p q) (q :: cs'')).
        destruct (IH (q :: cs'') G' W' (rectilinear_tl _ _ Rl) _ _ _ _ _ A1 S1) as (A2 & S2).
        { cbn [length] in B |- *. rewrite !Nat2Z.inj_succ in *. lia. }
        cbv zeta in *. cbn [steps] in *. rewrite !Z.add_assoc. split; [exact A2|].
        destruct S2 as (P1 & P2_ & P3_). change (length (zp :: zq :: zs)) with (S (length (zq :: zs))). rewrite Nat2Z.inj_succ. unfold small3. lia.
Qed.
(** The linear and point accumulators. *)
Definition lin (e : Z) (st : Cent) (x y l n px py : Z) : Prop :=
  lacc e (cn_line st, cn_len st) x y l /\ cn_count st = n /\ grid e (cx (cn_pts st)) px /\ grid e (cy (cn_pts st)) py.
Definition small5 (c x y l px py : Z) : Prop := small3 c x y l /\ Z.abs px <= c /\ Z.abs py <= c.
(** A chain of length zero counts as its first point. *)
Definition dot (zs : list (Z * Z)) : Z := if line_len zs =? 0 then 1 else 0.
Definition dotx (zs : list (Z * Z)) : Z := dot zs * fst (hd (0, 0) zs).
Definition doty (zs : list (Z * Z)) : Z := dot zs * snd (hd (0, 0) zs).
Definition chain_ok (e k : Z) (zs : list (Z * Z)) (cs : list Coordinate) : Prop :=
  zs <> [] /\ on_grid e zs cs /\ within k zs /\ rectilinear zs.
Lemma lines_lin hypot i e k zs cs st x y l n px py c : i32_arith i -> -300 <= e <= 300 -> 1 <= k -> hypot_axis hypot -> chain_ok e k zs cs ->
  lin e st x y l n px py -> small5 c x y l px py -> c + Z.of_nat (length zs) * (4 * (k * k)) <= 2 ^ 53 -> 0 <= n < 2147483647 ->
  exists st', add_line_segments hypot i st cs = Ok st' /\ cn_base st' = cn_base st /\ cn_area2 st' = cn_area2 st /\ cn_cg3 st' = cn_cg3 st /\
    lin e st' (x + line2x zs) (y + line2y zs) (l + line_len zs) (n + dot zs) (px + dotx zs) (py + doty zs) /\
    small5 (c + Z.of_nat (length zs) * (4 * (k * k))) (x + line2x zs) (y + line2y zs) (l + line_len zs) (px + dotx zs) (py + doty zs).
Proof.
  intros I He Hk Ha (Nz & G & W & Rl) ((Lx & Ly & Ll) & Hn & Hpx & Hpy) ((Sx & Sy & Sl) & Spx & Spy) B Bn.
  assert (k <= k * k) as K1 by nia.
  destruct zs as [|z0 zs]; [easy|]. inversion G as [|? c0 ? cs' [G1 G2] G']; subst cs. subst.
  assert (0 <= c) as C0 by lia.
  destruct (line_acc hypot e k He Hk Ha _ _ G W Rl (cn_line st, f0) x y 0 c) as ((A1 & A2 & A3) & (S1 & S2 & S3)).
  { split; [exact Lx|split; [exact Ly|apply grid_f0]]. } { unfold small3. lia. } { exact B. }
  cbn [fst snd] in *. rewrite Z.add_0_l in A3, S3.
  rewrite add_lines_fold by discriminate. destruct (line_fold hypot (cn_line st, f0) (c0 :: cs')) as [sum ll]. cbn [fst snd hd] in *. cbv zeta.
  assert (Hlen : 1 <= Z.of_nat (length (z0 :: zs))) by (cbn [length]; lia).
  assert (0 <= line_len (z0 :: zs)) as LL0.
  { unfold line_len. clear. generalize (z0 :: zs). induction l as [|a [|b l] IH]; [cbn; lia..|]. cbn [steps] in *. unfold step_len at 1. lia. }
  assert (Z.abs (line_len (z0 :: zs)) <= Z.of_nat (length (z0 :: zs)) * (4 * (k * k))) as LL1.
  { clear - W Hk K1 Rl. revert W Rl. generalize (z0 :: zs). induction l as [|a [|b l] IH]; intros W Rl; [cbn; lia| |].
    - unfold line_len. cbn [steps length]. lia.
    - inversion W as [|? ? Wa W']; subst. inversion W' as [|? ? Wb _]; subst. specialize (IH W' (rectilinear_tl _ _ Rl)). pose proof (rectilinear_hd _ _ _ Rl) as Hd.
      unfold line_len in *. change (steps step_len (a :: b :: l)) with (step_len a b + steps step_len (b :: l)). change (length (a :: b :: l)) with (S (length (b :: l))). rewrite Nat2Z.inj_succ.
      assert (Z.abs (step_len a b) <= 2 * k) by (unfold step_len; destruct Hd; lia). lia. }
  assert (Z.abs (l + line_len (z0 :: zs)) <= c + Z.of_nat (length (z0 :: zs)) * (4 * (k * k))) as SL by (clear - Sl LL1; lia).
  assert (grid e (fadd (cn_len st) ll) (l + line_len (z0 :: zs))) as GL by (apply grid_add; [clear - He; lia|clear - SL B; lia|exact Ll|exact A3]).
  rewrite (grid_eqb e _ _ _ 0 A3 (grid_f0 e)). inversion W as [|? ? [W1 W2] _]; subst.
  set (N := Z.of_nat (length (z0 :: zs)) * (4 * (k * k))) in *.
  assert (k <= N) as KN by (unfold N; clear - Hlen K1 Hk; nia).
  unfold dotx, doty, dot. cbn [hd]. destruct (Z.eqb_spec (line_len (z0 :: zs)) 0) as [E0|N0].
  - unfold add_point. cbn [cn_count]. rewrite (i32_in i) by (exact I || (clear - Bn; lia)). cbn [bind]. eexists. split; [reflexivity|].
    cbn [cn_base cn_area2 cn_cg3]. do 3 (split; [reflexivity|]). unfold lin, lacc. cbn [cn_line cn_len cn_count cn_pts fst snd set_x set_y cx cy].
    rewrite !Z.mul_1_l. split.
    + split; [split; [exact A1|split; [exact A2|exact GL]]|]. split; [reflexivity|].
      split; apply grid_add; try assumption; try (clear - He; lia); [clear - W1 Spx KN B; lia|clear - W2 Spy KN B; lia].
    + unfold small5, small3. split; [split; [exact S1|split; [exact S2|exact SL]]|]. clear - W1 W2 Spx Spy KN. lia.
  - eexists. split; [reflexivity|]. cbn [cn_base cn_area2 cn_cg3]. do 3 (split; [reflexivity|]). unfold lin, lacc. cbn [cn_line cn_len cn_count cn_pts fst snd].
    rewrite !Z.mul_0_l, !Z.add_0_r. split.
    + split; [split; [exact A1|split; [exact A2|exact GL]]|]. split; [reflexivity|]. split; assumption.
    + unfold small5, small3. split; [split; [exact S1|split; [exact S2|exact SL]]|]. clear - Spx Spy KN Hk. lia.
Qed.
Definition sum_len (zss : list (list (Z * Z))) : Z := total (fun zs => Z.of_nat (length zs)) zss.
Lemma sum_len_nonneg zss : 0 <= sum_len zss.
Proof. induction zss as [|r hs IH]; [apply Z.le_refl|]. unfold sum_len. rewrite total_cons. fold (sum_len hs). lia. Qed.
Lemma ring_lin hypot i e k zs cs st b pos x y l n px py c : i32_arith i -> -300 <= e <= 300 -> 1 <= k -> hypot_axis hypot -> chain_ok e k zs cs ->
  lin e st x y l n px py -> small5 c x y l px py -> c + Z.of_nat (length zs) * (4 * (k * k)) <= 2 ^ 53 -> 0 <= n < 2147483647 ->
  exists st', add_line_segments hypot i (tri_fold st b cs pos) cs = Ok st' /\ cn_base st' = cn_base st /\
    lin e st' (x + line2x zs) (y + line2y zs) (l + line_len zs) (n + dot zs) (px + dotx zs) (py + doty zs) /\
    small5 (c + Z.of_nat (length zs) * (4 * (k * k))) (x + line2x zs) (y + line2y zs) (l + line_len zs) (px + dotx zs) (py + doty zs).
Proof.
  intros I He Hk Ha R L Sm B Bn. destruct (tri_fold_keeps b cs pos st) as (K1 & K2 & K3 & K4 & K5).
  destruct (lines_lin hypot i e k zs cs (tri_fold st b cs pos) x y l n px py c) as (st' & E & Eb & _ & _ & L' & S'); try assumption.
  - unfold lin. rewrite K2, K3, K4, K5. exact L.
  - exists st'. rewrite Eb, K1. auto.
Qed.
Lemma chain_ok_ne e k zs cs : chain_ok e k zs cs -> cs <> [].
Proof. intros (N & G & _) ->. inversion G; subst. easy. Qed.
Lemma dot_01 zs : 0 <= dot zs <= 1.
Proof. unfold dot. destruct (_ =? _); lia. Qed.
Lemma holes_lin hypot i e k zss css b : i32_arith i -> -300 <= e <= 300 -> 1 <= k -> hypot_axis hypot -> Forall2 (chain_ok e k) zss css ->
  forall st x y l n px py c, cn_base st = Some b -> lin e st x y l n px py -> small5 c x y l px py -> c + sum_len zss * (4 * (k * k)) <= 2 ^ 53 ->
  0 <= n -> n + Z.of_nat (length zss) <= 2147483647 ->
  exists st', foldM (add_hole hypot i) css st = Ok st' /\
    lin e st' (x + total line2x zss) (y + total line2y zss) (l + total line_len zss) (n + total dot zss) (px + total dotx zss) (py + total doty zss) /\
    small5 (c + sum_len zss * (4 * (k * k))) (x + total line2x zss) (y + total line2y zss) (l + total line_len zss) (px + total dotx zss) (py + total doty zss).
Proof.
  intros I He Hk Ha F. assert (0 <= k * k) as K0 by nia.
  induction F as [|zs cs zss css R F IH]; intros st x y l n px py c Bs L Sm B Bn0 Bn.
  - exists st. split; [reflexivity|]. unfold sum_len, total. cbn [map fold_right length]. rewrite !Z.add_0_r. split; [exact L|]. unfold small5, small3 in *. lia.
  - cbn [foldM]. unfold sum_len in *. rewrite !total_cons in *. fold (sum_len zss) in *. pose proof (sum_len_nonneg zss). cbn [length] in Bn. rewrite Nat2Z.inj_succ in Bn.
    destruct (C46_vec_returns cs (chain_ok_ne _ _ _ _ R)) as (w & Ew).
    rewrite (add_hole_eq hypot i st b cs w Ew (chain_ok_ne _ _ _ _ R) Bs).
    destruct (ring_lin hypot i e k zs cs st b w x y l n px py c) as (st1 & E1 & B1 & L1 & S1); try assumption; [nia|lia|].
    rewrite E1. cbn [bind]. pose proof (dot_01 zs).
    destruct (IH st1 _ _ _ _ _ _ _ ltac:(now rewrite B1) L1 S1) as (st2 & E2 & L2 & S2); [lia..|].
    exists st2. split; [exact E2|]. rewrite !Z.add_assoc, Z.mul_add_distr_r, Z.add_assoc. now split.
Qed.
Lemma poly_lin hypot i e k zs hzs p : i32_arith i -> -300 <= e <= 300 -> 1 <= k -> hypot_axis hypot -> chain_ok e k zs (spts p) -> Forall2 (chain_ok e k) hzs (hpts p) ->
  forall st x y l n px py c, let zss := zs :: hzs in lin e st x y l n px py -> small5 c x y l px py -> c + sum_len zss * (4 * (k * k)) <= 2 ^ 53 ->
  0 <= n -> n + Z.of_nat (length zss) <= 2147483647 ->
  exists st', add_polygon hypot i st p = Ok st' /\
    lin e st' (x + total line2x zss) (y + total line2y zss) (l + total line_len zss) (n + total dot zss) (px + total dotx zss) (py + total doty zss) /\
    small5 (c + sum_len zss * (4 * (k * k))) (x + total line2x zss) (y + total line2y zss) (l + total line_len zss) (px + total dotx zss) (py + total doty zss).
Proof.
  intros I He Hk Ha R F st x y l n px py c zss L Sm B Bn0 Bn. assert (0 <= k * k) as K0 by nia. subst zss.
  unfold sum_len in *. rewrite !total_cons in *. fold (sum_len hzs) in *. pose proof (sum_len_nonneg hzs). cbn [length] in Bn. rewrite Nat2Z.inj_succ in Bn.
  pose proof (chain_ok_ne _ _ _ _ R) as Ne. destruct (C46_vec_returns _ Ne) as (w & Ew). rewrite add_polygon_fold.
  destruct (spts p) as [|c0 t]; [easy|]. rewrite (add_shell_eq hypot i st c0 t w Ew).
  destruct (ring_lin hypot i e k zs (c0 :: t) (set_area_base_point st c0) c0 (negb w) x y l n px py c) as (st1 & E1 & B1 & L1 & S1); try assumption; [nia|lia|].
  rewrite E1. cbn [bind]. pose proof (dot_01 zs).
  destruct (holes_lin hypot i e k hzs (hpts p) c0 I He Hk Ha F st1 _ _ _ _ _ _ _ ltac:(rewrite B1; cbn; now rewrite from_coordinate_id) L1 S1) as (st2 & E2 & L2 & S2); [lia..|].
  exists st2. split; [exact E2|]. rewrite !Z.add_assoc, Z.mul_add_distr_r, Z.add_assoc. now split.
Qed.
(** One correctly rounded division. *)
Lemma one_division e1 e2 m a M A : -700 <= e1 <= 700 -> -700 <= e2 <= 700 -> -700 <= e1 - e2 <= 700 -> grid e1 M m -> grid e2 A a -> a <> 0 -> Z.abs m <= 2 ^ 53 ->
  fis_finite (fdiv M A) = true /\ R_of (fdiv M A) = RN (IZR m / IZR a * bp (e1 - e2)).
Proof.
  intros H1 H2 H3 [FM RM] [FA RA] Ha Bm. pose proof (IZR_abs_ge1 a Ha) as La. pose proof (bp_pos e2).
  assert (IZR a <> 0)%R as Na by (intros E; rewrite E, Rabs_R0 in La; lra).
  assert (R_of M / R_of A = IZR m / IZR a * bp (e1 - e2))%R as E.
  { rewrite RM, RA. unfold Z.sub. rewrite bpow_plus, bpow_opp. field. split; [lra|exact Na]. }
  rewrite <- E. apply fdiv_R; [exact FM|rewrite RA; apply Rmult_integral_contrapositive_currified; [exact Na|lra]|].
  rewrite E. eapply Rle_lt_trans; [apply (RN_abs_le (53 + (e1 - e2)))|apply bpow_lt; lia]; [lia|].
  rewrite Rabs_mult, (Rabs_pos_eq (bp (e1 - e2))), bpow_plus by (left; apply bp_pos). apply Rmult_le_compat_r; [left; apply bp_pos|].
  unfold Rdiv. rewrite Rabs_mult, Rabs_inv. apply Rle_trans with (Rabs (IZR m) * 1)%R; [|rewrite Rmult_1_r; now apply IZR_abs_le53].
  apply Rmult_le_compat_l; [apply Rabs_pos|]. rewrite <- Rinv_1. apply Rinv_le_contravar; lra.
Qed.
Lemma centroid_of_lin e st x y l n px py : -300 <= e <= 300 -> grid (2 * e) (cn_area2 st) 0 -> lin e st x y l n px py -> small5 (2 ^ 53) x y l px py -> 0 < l ->
  exists c, cn_centroid st = Some c /\ rounded (cx c) (IZR x / (2 * IZR l) * bp e) /\ rounded (cy c) (IZR y / (2 * IZR l) * bp e) /\ cz c = fnan /\ cm c = fnan.
Proof.
  intros He Ga ((Lx & Ly & Ll) & _) ((Sx & Sy & _) & _) Hl. unfold cn_centroid. cbn [fst snd] in *. rewrite (area_test_0 e _ Ga).
  rewrite (grid_ltb e f0 (cn_len st) 0 l (grid_f0 e) Ll), (proj2 (Z.ltb_lt 0 l) Hl). eexists. split; [reflexivity|]. cbn [new_xy cx cy cz cm].
  assert (forall v, IZR v / (2 * IZR l) * bp e = IZR v / IZR l * bp (2 * e - 1 - e))%R as E.
  { intros v. replace (2 * e - 1 - e) with (e + -1) by lia. rewrite bpow_plus. change (bp (-1)) with (/ 2)%R. field. apply not_0_IZR. lia. }
  rewrite !E. split; [|split; [|split; reflexivity]]; unfold rounded; apply one_division; try assumption; lia.
Qed.
Lemma centroid_of_dots e st x y n px py : -300 <= e <= 300 -> grid (2 * e) (cn_area2 st) 0 -> lin e st x y 0 n px py -> small5 (2 ^ 53) x y 0 px py -> 0 < n <= 2147483647 ->
  exists c, cn_centroid st = Some c /\ rounded (cx c) (IZR px / IZR n * bp e) /\ rounded (cy c) (IZR py / IZR n * bp e) /\ cz c = fnan /\ cm c = fnan.
Proof.
  intros He Ga ((Lx & Ly & Ll) & Hn & Px & Py) (_ & Spx & Spy) Bn. unfold cn_centroid. cbn [fst snd] in *. rewrite (area_test_0 e _ Ga).
  rewrite (grid_ltb e f0 (cn_len st) 0 0 (grid_f0 e) Ll). rewrite Hn, (proj2 (Z.ltb_lt 0 n)) by lia. eexists. split; [reflexivity|]. cbn [new_xy cx cy cz cm].
  assert (grid 0 (fofZ n) n) as Gn by (apply grid_fofZ; lia).
  replace (bp e) with (bp (e - 0)) by (f_equal; lia).
  split; [|split; [|split; reflexivity]]; unfold rounded; apply one_division; try assumption; lia.
Qed.
