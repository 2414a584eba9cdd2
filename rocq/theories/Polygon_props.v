(** C64, C65, C68: polygons (polygon.rs). *)
From Coq Require Import ZArith Reals Bool List Lia Lra.
From Flocq Require Import Core.Zaux Core.Raux.
From Verif Require Import Base F64 F64Facts Coordinate_model Coordinate_spec Coordinate_proofs Envelope_model Envelope_spec Envelope_proofs
  CoordArrays_model CoordArrays_spec CoordArrays_proofs CoordSeq_model CoordSeq_spec CoordSeq_proofs CoordSeq_props
  PrecisionModel_model Measure_model Measure_spec Measure_proofs Measure_props Orientation_model Orientation_proofs Matrix_model Matrix_props
  Geom_model Geom_proofs Line_props Polygon_proofs.
Import ListNotations.
Open Scope nat_scope.

(** The points of the shell, the points of each hole. *)
Definition spts (p : GPoly) : list Coordinate := rpts (pg_shell p).
Definition hpts (p : GPoly) : list (list Coordinate) := map rpts (pg_holes p).
Definition unit_square : list Coordinate := [xy 0 0; xy 1 0; xy 1 1; xy 0 1; xy 0 0].
Definition hole_square : list Coordinate := [xy 2 2; xy 2 4; xy 4 4; xy 4 2; xy 2 2].
Definition big_square : list Coordinate := [xy 0 0; xy 8 0; xy 8 8; xy 0 8; xy 0 0].
Definition a_ring (cs : list Coordinate) : GRing := mkRg (seq_of cs) None None.
Definition with_hole : GPoly := mkPoly (a_ring big_square) [a_ring hole_square] None None.

(** ** C64: reversal *)
(** A polygon with a hole cannot be reversed. *)
Theorem C64_holes_panic : forall p, pg_holes p <> [] -> pg_reverse p = Panic.
Proof.
  intros p N. unfold pg_reverse, pg_exterior. rewrite rg_copy_id. cbn [bind]. destruct (rg_reverse_ok (mkRg (rg_seq (pg_shell p)) None None)) as (s & _ & ->). cbn [bind].
  unfold pg_num_holes. destruct (pg_holes p) as [|h hs] eqn:E; [easy|]. cbn [length forN]. unfold pg_hole_n. rewrite E. cbn [idx nth_error bind]. rewrite rg_copy_id. cbn [bind].
  destruct (rg_reverse_ok (mkRg (rg_seq h) None None)) as (t & _ & ->). cbn [bind]. rewrite upd_nil. reflexivity.
Qed.
Theorem C64_reverse_refuted : ~ (forall p, exists q, pg_reverse p = Ok q).
Proof. intros H. destruct (H with_hole) as (q & E). rewrite C64_holes_panic in E; [discriminate|]. discriminate. Qed.
(** Without holes the shell is reversed in X, Y, the cached envelope is kept,
    and a second reversal gives the original shell back. *)
Theorem C64_no_holes : forall p, pg_holes p = [] -> (2 <= sdim (rg_seq (pg_shell p)))%Z ->
  exists q, pg_reverse p = Ok q /\ pg_holes q = [] /\ pg_env q = pg_env p /\ length (spts q) = length (spts p) /\
    (forall i c, nth_error (rev (spts p)) i = Some c -> exists d, nth_error (spts q) i = Some d /\ cx d = cx c /\ cy d = cy c) /\
    exists o, pg_reverse q = Ok o /\ rg_seq (pg_shell o) = rg_seq (pg_shell p).
Proof.
  intros p N D. destruct (reverse_ok (rg_seq (pg_shell p))) as (s & E & E' & D').
  assert (forall p s, pg_holes p = [] -> seq_reverse (rg_seq (pg_shell p)) = Ok s -> exists q, pg_reverse p = Ok q /\ pg_holes q = [] /\ pg_env q = pg_env p /\ rg_seq (pg_shell q) = s) as R.
  { clear. intros p s N E. unfold pg_reverse, pg_exterior. rewrite rg_copy_id. cbn [bind]. destruct (rg_reverse_ok (mkRg (rg_seq (pg_shell p)) None None)) as (t & T & ->). cbn [rg_seq] in T. cbn [bind].
    unfold pg_num_holes. rewrite N. cbn [length forN bind]. unfold pg_new, pg_new_pm. rewrite rg_copy_id. cbn [bind rg_seq]. assert (t = s) as -> by congruence.
    destruct (pg_env p) as [e|]; eexists; (split; [reflexivity|]); cbn; rewrite ?env_copy; auto. }
  destruct (R p s N E) as (q & Q & Hq & Eq & Sq). exists q. split; [exact Q|]. split; [exact Hq|]. split; [exact Eq|].
  pose proof (reverse_xy _ _ D E) as (L & XY). unfold spts, rpts. rewrite Sq.
  split; [now rewrite L, rev_length|]. split.
  - intros i c H. assert (i < length (rev (scoords (rg_seq (pg_shell p))))) as Hi by (apply nth_error_Some; congruence).
    exists (nth i (scoords s) coord_default). split; [apply nth_error_nth'; lia|]. destruct (XY i ltac:(lia)) as (X & Y). rewrite (nth_error_nth _ _ _ H) in X, Y. auto.
  - rewrite <- Sq in E'. destruct (R q _ Hq E') as (o & O & _ & _ & So). exists o. auto.
Qed.
Example C64_example : pg_holes with_hole <> [] /\ pg_holes (mkPoly (a_ring unit_square) [] None None) = [] /\ (2 <= sdim (rg_seq (a_ring unit_square)))%Z.
Proof. split; [discriminate|]. split; [reflexivity|]. vm_compute. discriminate. Qed.

(** ** C65: normalisation *)
(** Normalising leaves every ring as it is, whatever its starting point and
    direction. *)
Theorem C65_unchanged : forall u p, usize_arith u ->
  Forall (fun r => length (rpts r) <> 1 /\ small_seq (rg_seq r)) (pg_shell p :: pg_holes p) ->
  exists q, pg_self_normalize u p = Ok (Some q) /\ rg_seq (pg_shell q) = rg_seq (pg_shell p) /\
    map rg_seq (pg_holes q) = map rg_seq (pg_holes p) /\ pg_env q = pg_env p.
Proof.
  intros u p U F. inversion F as [|? ? (N & B) Fh]; subst. unfold pg_self_normalize, ring_normalized. rewrite rg_copy_id. cbn [bind].
  rewrite ring_normalize_ok by (try exact U; assumption). cbn [bind option_map].
  match goal with |- context [forN (length (pg_holes p)) 0 _ ?b] =>
    destruct (forN_ind (fun _ o => exists hs, o = Some hs /\ map rg_seq hs = map rg_seq (pg_holes p)) b (length (pg_holes p)) 0 (Some (pg_holes p))) as (o & -> & hs & -> & M) end.
  - eauto.
  - intros i o Hi (hs & -> & M). assert (length hs = length (pg_holes p)) as Lh by (rewrite <- (map_length rg_seq hs), M, map_length; reflexivity).
    destruct (nth_error hs i) as [h|] eqn:H; [|apply nth_error_None in H; lia]. unfold idx. rewrite H. cbn [bind]. rewrite rg_copy_id. cbn [bind].
    pose proof (map_nth_error rg_seq i hs H) as Hm. rewrite M in Hm.
    assert (length (rpts h) <> 1 /\ small_seq (rg_seq h)) as (Nh & Bh).
    { rewrite nth_error_map in Hm. destruct (nth_error (pg_holes p) i) as [h0|] eqn:H0; [|discriminate]. injection Hm as Hm.
      rewrite Forall_forall in Fh. unfold rpts. rewrite <- Hm. apply Fh. eapply nth_error_In; eauto. }
    rewrite ring_normalize_ok by (try exact U; assumption). cbn [bind option_map].
    destruct (upd_some hs i (mkRg (rg_seq h) None None) ltac:(lia)) as (hs' & Eu). rewrite Eu. cbn [bind]. eexists. split; [reflexivity|]. exists hs'. split; [reflexivity|].
    rewrite <- M. clear - H Eu. revert i hs' H Eu. induction hs as [|x hs IH]; intros [|i] hs' H Eu; cbn in H, Eu; try discriminate.
    + injection H as ->. injection Eu as <-. reflexivity.
    + destruct (upd hs i (mkRg (rg_seq h) None None)) as [t|] eqn:T; cbn in Eu; [|discriminate]. injection Eu as <-. cbn. f_equal. eauto.
  - cbn [bind option_map]. eexists. split; [reflexivity|]. cbn. auto.
Qed.
(** A ring of a single point makes it panic. *)
Theorem C65_single_point_panics : forall u p, usize_arith u ->
  Forall (fun r => small_seq (rg_seq r)) (pg_shell p :: pg_holes p) ->
  (exists r, In r (pg_shell p :: pg_holes p) /\ length (rpts r) = 1) -> pg_self_normalize u p = Panic.
Proof.
  intros u p U F (r & I & L). unfold pg_self_normalize, ring_normalized. rewrite rg_copy_id. cbn [bind].
  destruct (Nat.eq_dec (length (rpts (pg_shell p))) 1) as [E|E]; [rewrite ring_normalize_one by (try exact U; exact E); reflexivity|].
  inversion F as [|? ? B Fh]; subst. rewrite ring_normalize_ok by (try exact U; assumption). cbn [bind option_map].
  destruct I as [I|I]; [subst r; contradiction|]. apply In_nth_error in I. destruct I as (k & K).
  assert (k < length (pg_holes p)) as Hk by (apply nth_error_Some; congruence).
  match goal with |- bind (forN _ 0 _ ?b) _ = _ => set (body := b) end.
  assert (forall n lo hs, lo <= k < lo + n -> nth_error hs k = Some r -> lo + n <= length hs -> Forall (fun r => small_seq (rg_seq r)) hs -> forN n lo (Some hs) body = Panic) as G.
  { induction n as [|n IH]; intros lo hs R H Ln Fs; [lia|]. cbn [forN]. unfold body at 1. destruct (nth_error hs lo) as [h|] eqn:Hh; [|apply nth_error_None in Hh; lia].
    unfold idx. rewrite Hh. cbn [bind]. rewrite rg_copy_id. cbn [bind].
    destruct (Nat.eq_dec (length (rpts h)) 1) as [E1|E1]; [rewrite ring_normalize_one by (try exact U; exact E1); reflexivity|].
    rewrite ring_normalize_ok; [|exact U|exact E1|exact (proj1 (Forall_forall _ _) Fs h (nth_error_In _ _ Hh))]. cbn [bind option_map].
    destruct (upd_some hs lo (mkRg (rg_seq h) None None) ltac:(lia)) as (hs' & Eu). rewrite Eu. cbn [bind]. destruct (upd_nth_error _ _ _ _ Eu) as (L' & Q).
    assert (lo <> k) by congruence. apply IH; [lia| | |].
    - rewrite <- H. specialize (Q k). destruct (Nat.eqb_spec k lo); [lia|]. exact Q.
    - lia.
    - apply Forall_forall. intros x X. apply In_nth_error in X. destruct X as (j & J). rewrite Q in J. rewrite Forall_forall in Fs. destruct (Nat.eqb_spec j lo) as [Ej|Nj].
      + injection J as <-. apply (Fs h). eapply nth_error_In; eauto.
      + apply Fs. exact (nth_error_In _ _ J). }
  rewrite G; [reflexivity|lia|exact K|lia|exact Fh].
Qed.
(** So a counter-clockwise shell stays counter-clockwise, and the first point
    need not be the least one. *)
Theorem C65_normal_form_refuted : ~ (forall p q, pg_self_normalize usize_chk p = Ok (Some q) -> is_ccw_seq (rg_seq (pg_shell q)) = Ok (Some false)).
Proof.
  intros H. set (p := mkPoly (a_ring unit_square) [] None None). destruct (C65_unchanged usize_chk p) as (q & Q & S & _).
  - now left.
  - constructor; [|constructor]. split; [discriminate|]. vm_compute. discriminate.
  - specialize (H p q Q). rewrite S in H. vm_compute in H. discriminate.
Qed.
Example C65_example : Forall (fun r => length (rpts r) <> 1 /\ small_seq (rg_seq r)) (pg_shell with_hole :: pg_holes with_hole) /\
  (exists r, In r [a_ring [xy 1 1]] /\ length (rpts r) = 1).
Proof. split; [repeat constructor; vm_compute; discriminate|]. exists (a_ring [xy 1 1]). split; [now left|reflexivity]. Qed.

(** ** C68: accessors and measures *)
(** A polygon keeps the points it was made of. *)
Theorem C68_new : forall shell holes, exists p, pg_new shell holes = Ok p /\ spts p = rpts shell /\ pg_holes p = holes /\ pg_env p = None /\
  pg_num_holes p = length holes /\
  (exists r, pg_exterior p = Ok r /\ rpts r = rpts shell) /\
  (forall i h, nth_error holes i = Some h -> exists r, pg_hole_n p i = Ok r /\ rpts r = rpts h) /\
  (forall i, length holes <= i -> pg_hole_n p i = Panic) /\
  pg_coordinate p = Ok (hd_error (rpts shell)).
Proof.
  intros shell holes. unfold pg_new, pg_new_pm. rewrite rg_copy_id. cbn [bind]. eexists. split; [reflexivity|]. repeat split.
  - unfold pg_exterior. rewrite rg_copy_id. eexists. repeat split.
  - intros i h H. unfold pg_hole_n, idx. cbn [pg_holes]. rewrite H. cbn [bind]. rewrite rg_copy_id. eexists. repeat split.
  - intros i H. unfold pg_hole_n. cbn [pg_holes]. now rewrite idx_panic.
  - unfold pg_coordinate. rewrite rg_copy_id. cbn [bind]. unfold rg_coordinate, rg_is_empty, seq_size, seq_coord, idx, rpts. cbn [rg_seq pg_shell]. now destruct (scoords (rg_seq shell)).
Qed.
(** Made from a list of coordinates it has these as its shell, and no hole. *)
Theorem C68_of_coordinates : forall cs, exists p, create_polygon cs = Ok p /\ spts p = cs /\ pg_holes p = [] /\ pg_num_points p = length cs.
Proof.
  intros cs. unfold create_polygon, rg_of. rewrite rg_of_seq_id. cbn [bind].
  destruct (C68_new (mkRg (seq_of cs) None None) []) as (p & E & S & H & _). exists p. unfold pg_new_shell. split; [exact E|].
  split; [exact S|]. split; [exact H|]. unfold pg_num_points. rewrite H. cbn [map fold_left fold_right]. change (rg_num_points (pg_shell p)) with (length (spts p)). rewrite S. cbn. rewrite ?Nat.add_0_r. reflexivity.
Qed.
(** A copy has the same points. *)
Theorem C68_copy : forall p, exists q, pg_copy p = Ok q /\ rg_seq (pg_shell q) = rg_seq (pg_shell p) /\ map rg_seq (pg_holes q) = map rg_seq (pg_holes p).
Proof.
  intros p. unfold pg_copy. rewrite rg_copy_id. cbn [bind]. rewrite (collect rg_copy (fun h => mkRg (rg_seq h) None None)) by (intros a _; apply rg_copy_id). cbn [bind].
  unfold pg_new, pg_new_pm. rewrite rg_copy_id. cbn [bind]. eexists. split; [reflexivity|]. cbn. split; [reflexivity|]. rewrite map_map. reflexivity.
Qed.
(** All coordinates: the shell, then the holes in order. *)
Theorem C68_coordinates : forall i p, i32_arith i -> spts p <> [] -> (Z.of_nat (pg_num_points p) <= 2147483648)%Z ->
  pg_coordinates i p = Ok (spts p ++ concat (hpts p)) /\ pg_num_points p = length (spts p ++ concat (hpts p)).
Proof.
  intros i p I N B. rewrite num_points_sum in *. change (map (fun h => scoords (rg_seq h)) (pg_holes p)) with (hpts p) in *. change (scoords (rg_seq (pg_shell p))) with (spts p) in *.
  split; [|reflexivity]. unfold pg_coordinates, pg_is_empty, rg_is_empty, seq_size. change (scoords (rg_seq (pg_shell p))) with (spts p).
  destruct (spts p) as [|s0 st] eqn:Sp; [easy|]. rewrite <- Sp in *. destruct (Nat.eqb_spec (length (spts p)) 0) as [Z0|_]; [rewrite Sp in Z0; discriminate|].
  unfold rg_coordinates, seq_to_array. change (scoords (rg_seq (pg_shell p))) with (spts p).
  pose proof (put_all_ok i (spts p) [] (repeat coord_default (pg_num_points p)) I) as P. rewrite num_points_sum in P. fold (hpts p) in P.
  change (map (fun h => scoords (rg_seq h)) (pg_holes p)) with (hpts p) in P. change (scoords (rg_seq (pg_shell p))) with (spts p) in P.
  rewrite num_points_sum. change (map (fun h => scoords (rg_seq h)) (pg_holes p)) with (hpts p). change (scoords (rg_seq (pg_shell p))) with (spts p).
  set (total := length (spts p ++ concat (hpts p))) in *. assert (total = length (spts p) + length (concat (hpts p))) as T by apply app_length.
  cbn [app length Nat.add] in P. change (Z.of_nat 0 - 1)%Z with (-1)%Z in P. rewrite P; [|rewrite repeat_length; lia|lia]. clear P. cbn [bind].
  match goal with |- context [forN (length (pg_holes p)) 0 _ ?b] => set (body := b) end.
  assert (forall n lo pre rest, lo + n = length (pg_holes p) -> length (concat (skipn lo (hpts p))) = length rest -> length pre + length rest = total ->
     forN n lo (Z.of_nat (length pre) - 1, pre ++ rest)%Z body = Ok (Z.of_nat total - 1, pre ++ concat (skipn lo (hpts p)))%Z) as G.
  { induction n as [|n IH]; intros lo pre rest Ln Lr Lt.
    - cbn [forN]. rewrite skipn_all2 in * by (unfold hpts; rewrite map_length; lia). cbn in Lr. destruct rest; [|discriminate]. cbn in Lt. replace total with (length pre) by lia. reflexivity.
    - cbn [forN]. unfold body at 1. destruct (nth_error (pg_holes p) lo) as [h|] eqn:H; [|apply nth_error_None in H; lia]. unfold idx. rewrite H. cbn [bind].
      assert (skipn lo (hpts p) = rpts h :: skipn (S lo) (hpts p)) as K.
      { unfold hpts. clear - H. revert lo H. induction (pg_holes p) as [|x l IH]; intros [|lo] H; cbn in H; try discriminate; [now injection H as ->|]. cbn. now apply IH. }
      rewrite K in *. cbn [concat] in *. rewrite app_length in Lr. change (scoords (rg_seq h)) with (rpts h).
      rewrite put_all_ok; [|exact I|lia|lia]. cbn [bind]. replace (length pre + length (rpts h)) with (length (pre ++ rpts h)) by apply app_length.
      rewrite IH; [now rewrite <- app_assoc|lia|rewrite skipn_length; lia|rewrite app_length, skipn_length; lia]. }
  rewrite (G (length (pg_holes p)) 0 (spts p) (skipn (length (spts p)) (repeat coord_default total))); [reflexivity|reflexivity| |].
  - cbn [skipn]. rewrite skipn_length, repeat_length. lia.
  - rewrite skipn_length, repeat_length. lia.
Qed.
(** But with an empty shell the holes are counted and not returned. *)
Theorem C68_empty_shell : forall i p, spts p = [] -> pg_coordinates i p = Ok [] /\ pg_num_points p = length (concat (hpts p)) /\ pg_is_empty p = true.
Proof.
  intros i p E. assert (pg_is_empty p = true) as X by (unfold pg_is_empty, rg_is_empty, seq_size; fold (rpts (pg_shell p)); fold (spts p); now rewrite E).
  unfold pg_coordinates. rewrite X. split; [reflexivity|]. split; [|reflexivity]. rewrite num_points_sum. fold (rpts (pg_shell p)). fold (spts p). now rewrite E.
Qed.
Theorem C68_count_refuted : ~ (forall p cs, pg_coordinates i32_chk p = Ok cs -> length cs = pg_num_points p).
Proof. intros H. specialize (H (mkPoly (a_ring []) [a_ring hole_square] None None) [] eq_refl). discriminate. Qed.

(** Twice the area of some rings. *)
Definition holes_area2 (hzs : list (list (Z * Z))) : Z := fold_right Z.add 0%Z (map (fun z => Z.abs (trapezoids z)) hzs).
(** The area on integer grids: shell minus holes, without any rounding. *)
Theorem C68_area : forall e k p zs hzs, exact_ring e k zs (spts p) -> Forall2 (exact_ring e k) hzs (hpts p) ->
  (Z.abs (trapezoids zs) + holes_area2 hzs <= 2 ^ 53)%Z ->
  exists r, pg_area p = Ok r /\ fis_finite r = true /\
    R_of r = (IZR (Z.abs (trapezoids zs) - holes_area2 hzs) / 2 * (bp e * bp e))%R.
Proof.
  intros e k p zs hzs X F B. assert (forall zs cs, exact_ring e k zs cs -> exists a, area_vec cs = Ok a /\ grid (2 * e - 1) a (Z.abs (trapezoids zs))) as AG.
  { intros z c H. destruct (C47_area_exact e k z c H) as (a & Ea & Fa & Ra). exists a. split; [exact Ea|]. split; [exact Fa|]. rewrite Ra, abs_IZR.
    replace (2 * e - 1)%Z with (e + e + -1)%Z by lia. rewrite !bpow_plus. change (bpow radix2 (-1)) with (/ 2)%R. unfold Rdiv. ring. }
  pose proof X as (He & _). unfold pg_area. rewrite rg_sequence_id. cbn [bind]. destruct (C47_variants_agree (rg_seq (pg_shell p))) as (_ & -> & _). fold (rpts (pg_shell p)). fold (spts p).
  destruct (AG _ _ X) as (a & -> & Ga). cbn [bind].
  match goal with |- context [forN (length (pg_holes p)) 0 _ ?b] => set (body := b) end.
  set (T := holes_area2) in *.
  assert (forall l, (0 <= T l)%Z) as TP by (unfold T, holes_area2; induction l; cbn in *; lia).
  assert (forall n lo acc m, lo + n = length (pg_holes p) -> grid (2 * e - 1) acc m -> (Z.abs m + T (skipn lo hzs) <= 2 ^ 53)%Z ->
     exists r, forN n lo acc body = Ok r /\ grid (2 * e - 1) r (m - T (skipn lo hzs))) as G.
  { assert (length hzs = length (pg_holes p)) as Lz by (apply Forall2_length in F; unfold hpts in F; now rewrite map_length in F).
    induction n as [|n IH]; intros lo acc m Ln Gm Bm.
    - cbn [forN]. exists acc. rewrite skipn_all2 by lia. split; [reflexivity|]. cbn. now rewrite Z.sub_0_r.
    - cbn [forN]. unfold body at 1. destruct (nth_error (pg_holes p) lo) as [h|] eqn:H; [|apply nth_error_None in H; lia]. unfold idx. rewrite H. cbn [bind]. rewrite rg_sequence_id. cbn [bind].
      destruct (nth_error hzs lo) as [z|] eqn:Hz; [|apply nth_error_None in Hz; lia].
      assert (exact_ring e k z (rpts h)) as Xh.
      { clear - F H Hz. unfold hpts in F. revert lo H Hz. remember (map rpts (pg_holes p)) as hp eqn:Eh. revert Eh. generalize (pg_holes p). induction F as [|z0 c0 zs0 cs0 Q F IH]; intros l Eh [|lo] H Hz; cbn in Hz; try discriminate; destruct l as [|h0 l]; try discriminate; cbn in Eh; injection Eh as Ec El; cbn in H.
        - injection H as ->. injection Hz as ->. now rewrite Ec in Q.
        - eapply IH; eauto. }
      destruct (C47_variants_agree (rg_seq h)) as (_ & -> & _). fold (rpts h). destruct (AG _ _ Xh) as (b & -> & Gb). cbn [bind].
      assert (skipn lo hzs = z :: skipn (S lo) hzs) as K.
      { clear - Hz. revert lo Hz. induction hzs as [|x l IH]; intros [|lo] H; cbn in H; try discriminate; [now injection H as ->|]. cbn. now apply IH. }
      rewrite K in *. change (T (z :: skipn (S lo) hzs)) with (Z.abs (trapezoids z) + T (skipn (S lo) hzs))%Z in *. pose proof (TP (skipn (S lo) hzs)).
      destruct (IH (S lo) (fsub acc b) (m - Z.abs (trapezoids z))%Z) as (r & Er & Gr); [lia|apply grid_sub; auto; lia|lia|].
      exists r. split; [exact Er|]. now replace (m - (Z.abs (trapezoids z) + T (skipn (S lo) hzs)))%Z with (m - Z.abs (trapezoids z) - T (skipn (S lo) hzs))%Z by lia. }
  assert (0 <= T hzs)%Z as T0 by apply TP.
  destruct (G (length (pg_holes p)) 0 (fadd f0 a) (Z.abs (trapezoids zs))) as (r & Er & Fr & Rr).
  - reflexivity.
  - replace (Z.abs (trapezoids zs)) with (0 + Z.abs (trapezoids zs))%Z by lia. apply grid_add; [lia|lia|apply grid_f0|exact Ga].
  - cbn [skipn]. lia.
  - exists r. split; [exact Er|]. split; [exact Fr|]. rewrite Rr. cbn [skipn]. replace (2 * e - 1)%Z with (e + e + -1)%Z by lia. rewrite !bpow_plus. change (bpow radix2 (-1)) with (/ 2)%R. unfold Rdiv. ring.
Qed.
(** The area never panics; the length never panics. *)
Theorem C68_measures_total : forall hypot p, (exists r, pg_area p = Ok r) /\ (exists r, pg_length hypot p = Ok r).
Proof.
  intros hypot p. split.
  - unfold pg_area. rewrite rg_sequence_id. cbn [bind]. destruct (C47_variants_agree (rg_seq (pg_shell p))) as (_ & -> & a & A). unfold area_vec. rewrite A. cbn [bind].
    match goal with |- exists r, forN ?n ?lo ?x ?b = _ => destruct (forN_ind (fun _ (_ : f64) => True) b n lo x I) as (r & -> & _); [|eauto] end.
    intros i s Hi _. destruct (nth_error (pg_holes p) i) as [h|] eqn:H; [|apply nth_error_None in H; lia]. unfold idx. rewrite H. cbn [bind]. rewrite rg_sequence_id. cbn [bind].
    destruct (C47_variants_agree (rg_seq h)) as (_ & -> & b & Eb). unfold area_vec. rewrite Eb. cbn [bind]. eauto.
  - unfold pg_length, rg_length. rewrite length_seg_sum. cbn [bind].
    match goal with |- exists r, forN ?n ?lo ?x ?b = _ => destruct (forN_ind (fun _ (_ : f64) => True) b n lo x I) as (r & -> & _); [|eauto] end.
    intros i s Hi _. destruct (nth_error (pg_holes p) i) as [h|] eqn:H; [|apply nth_error_None in H; lia]. unfold idx. rewrite H. cbn [bind]. rewrite length_seg_sum. cbn [bind]. eauto.
Qed.
(** The length of rectilinear rings on grids: the sum over all rings. *)
Definition holes_length (hzs : list (list (Z * Z))) : Z := fold_right Z.add 0%Z (map manhattan hzs).
Lemma manhattan_pos l : (0 <= manhattan l)%Z.
Proof. induction l as [|a [|b l] IH]; cbn in *; lia. Qed.
Theorem C68_length : forall hypot e p zs hzs, (-1074 <= e <= 970)%Z -> hypot_axis hypot ->
  on_grid e zs (spts p) -> rectilinear zs -> Forall2 (on_grid e) hzs (hpts p) -> Forall rectilinear hzs ->
  (manhattan zs + holes_length hzs <= 2 ^ 53)%Z ->
  exists r, pg_length hypot p = Ok r /\ fis_finite r = true /\ R_of r = (IZR (manhattan zs + holes_length hzs) * bp e)%R.
Proof.
  intros hypot e p zs hzs He Hh G0 R0 F Fr B.
  assert (forall l, (0 <= holes_length l)%Z) as TP by (unfold holes_length; induction l as [|a l IH]; cbn in *; [lia|pose proof (manhattan_pos a); lia]).
  assert (forall r zs, on_grid e zs (rpts r) -> rectilinear zs -> (manhattan zs <= 2 ^ 53)%Z -> exists a, rg_length hypot r = Ok a /\ grid e a (manhattan zs)) as LG.
  { intros r z G R Bz. unfold rg_length, rpts in *. destruct (rg_seq r) as [d k cs]. destruct (C48_rectilinear hypot d k e z cs He Hh G R Bz) as (a & Ea & Fa & Ra). exists a. split; [exact Ea|]. split; assumption. }
  pose proof (TP hzs). pose proof (manhattan_pos zs). unfold pg_length. destruct (LG _ _ G0 R0 ltac:(lia)) as (a & -> & Ga). cbn [bind].
  match goal with |- context [forN (length (pg_holes p)) 0 _ ?b] => set (body := b) end.
  assert (forall n lo acc m, lo + n = length (pg_holes p) -> (0 <= m)%Z -> grid e acc m -> (m + holes_length (skipn lo hzs) <= 2 ^ 53)%Z ->
     exists r, forN n lo acc body = Ok r /\ grid e r (m + holes_length (skipn lo hzs))) as G.
  { assert (length hzs = length (pg_holes p)) as Lz by (apply Forall2_length in F; unfold hpts in F; now rewrite map_length in F).
    induction n as [|n IH]; intros lo acc m Ln Pm Gm Bm.
    - cbn [forN]. exists acc. rewrite skipn_all2 by lia. split; [reflexivity|]. cbn. now rewrite Z.add_0_r.
    - cbn [forN]. unfold body at 1. destruct (nth_error (pg_holes p) lo) as [h|] eqn:H1; [|apply nth_error_None in H1; lia]. unfold idx. rewrite H1. cbn [bind].
      destruct (nth_error hzs lo) as [z|] eqn:Hz; [|apply nth_error_None in Hz; lia].
      assert (on_grid e z (rpts h)) as Xh.
      { clear - F H1 Hz. unfold hpts in F. revert lo H1 Hz. remember (map rpts (pg_holes p)) as hp eqn:Eh. revert Eh. generalize (pg_holes p). induction F as [|z0 c0 zs0 cs0 Q F IH]; intros l Eh [|lo] H Hz; cbn in Hz; try discriminate; destruct l as [|h0 l]; try discriminate; cbn in Eh; injection Eh as Ec El; cbn in H.
        - injection H as ->. injection Hz as ->. now rewrite Ec in Q.
        - eapply IH; eauto. }
      assert (skipn lo hzs = z :: skipn (S lo) hzs) as K.
      { clear - Hz. revert lo Hz. induction hzs as [|x l IH]; intros [|lo] H; cbn in H; try discriminate; [now injection H as ->|]. cbn. now apply IH. }
      rewrite K in *. change (holes_length (z :: skipn (S lo) hzs)) with (manhattan z + holes_length (skipn (S lo) hzs))%Z in *. pose proof (TP (skipn (S lo) hzs)). pose proof (manhattan_pos z).
      destruct (LG h z Xh) as (b & -> & Gb); [exact (proj1 (Forall_forall _ _) Fr z (nth_error_In _ _ Hz))|lia|]. cbn [bind].
      destruct (IH (S lo) (fadd acc b) (m + manhattan z)%Z) as (r & Er & Gr); [lia|lia|apply grid_add; auto; lia|lia|].
      exists r. split; [exact Er|]. now replace (m + (manhattan z + holes_length (skipn (S lo) hzs)))%Z with (m + manhattan z + holes_length (skipn (S lo) hzs))%Z by lia. }
  destruct (G (length (pg_holes p)) 0 (fadd f0 a) (manhattan zs)) as (r & Er & Fr' & Rr).
  - reflexivity.
  - lia.
  - replace (manhattan zs) with (0 + manhattan zs)%Z by lia. apply grid_add; [lia|lia|apply grid_f0|exact Ga].
  - cbn [skipn]. lia.
  - exists r. split; [exact Er|]. split; [exact Fr'|exact Rr].
Qed.

(** ** Envelopes *)
(** The operations that make and change a polygon. *)
Inductive poly_made : GPoly -> Prop :=
| pmade_new shell holes pm p : ring_made shell -> pg_new_pm shell holes pm = Ok p -> poly_made p
| pmade_copy p q : poly_made p -> pg_copy p = Ok q -> poly_made q
| pmade_reverse p q : poly_made p -> pg_reverse p = Ok q -> poly_made q
| pmade_asked p : poly_made p -> poly_made (fst (pg_get_envelope p)).
Lemma poly_cache p : poly_made p -> Forall nn_xy (spts p) -> ring_made (pg_shell p) /\ forall e, pg_env p = Some e -> same_points e (envelope_of (spts p)).
Proof.
  assert (forall s, ring_made (mkRg s None None)) as MN by (intros s; eapply made_new, rg_of_seq_id).
  induction 1 as [shell holes pm p M E|p q _ IH E|p q _ IH E|p _ IH]; intros F.
  - unfold pg_new_pm in E. rewrite rg_copy_id in E. cbn [bind] in E. injection E as <-. split; [apply MN|discriminate].
  - destruct (C68_copy p) as (q' & Q & _). unfold pg_copy in E. rewrite rg_copy_id in E. cbn [bind] in E.
    rewrite (collect rg_copy (fun h => mkRg (rg_seq h) None None)) in E by (intros a _; apply rg_copy_id). cbn [bind] in E.
    unfold pg_new, pg_new_pm in E. rewrite rg_copy_id in E. cbn [bind] in E. injection E as <-. split; [apply MN|discriminate].
  - destruct (pg_holes p) as [|h hs] eqn:Hp; [|rewrite C64_holes_panic in E; [discriminate|now rewrite Hp]].
    unfold pg_reverse, pg_exterior in E. rewrite rg_copy_id in E. cbn [bind] in E. destruct (rg_reverse_ok (mkRg (rg_seq (pg_shell p)) None None)) as (t & T & ER). cbn [rg_seq] in T. rewrite ER in E. cbn [bind] in E.
    unfold pg_num_holes in E. rewrite Hp in E. cbn [length forN bind] in E. unfold pg_new, pg_new_pm in E. rewrite rg_copy_id in E. cbn [bind rg_seq pg_shell pg_holes pg_pm] in E.
    destruct (pg_env p) as [e|] eqn:C; injection E as <-; (split; [apply MN|]); intros e' Q; cbn [pg_env] in Q; [|discriminate]. injection Q as <-. rewrite env_copy.
    unfold spts, rpts in *. cbn [pg_shell rg_seq] in *. pose proof (proj2 (reverse_nn _ _ T) F) as F'. destruct (IH F') as (_ & K). intros x y. rewrite (K e eq_refl x y). symmetry. now apply (reverse_envelope _ _ T F').
  - unfold pg_get_envelope in *. destruct (pg_env p) as [e|] eqn:C; cbn [fst] in *.
    + rewrite C. apply IH. exact F.
    + destruct (rg_get_envelope (pg_shell p)) as (s & e) eqn:G. cbn [fst snd] in *. assert (s = fst (rg_get_envelope (pg_shell p))) as Es by now rewrite G. assert (e = snd (rg_get_envelope (pg_shell p))) as Ee by now rewrite G.
      assert (rpts s = rpts (pg_shell p)) as Rs by (rewrite Es; unfold rg_get_envelope; now destruct (rg_env (pg_shell p))).
      unfold spts in *. cbn [pg_shell pg_env] in *. rewrite Rs in F |- *. destruct (IH F) as (M & _). split; [rewrite Es; now apply made_asked|]. intros e' Q. injection Q as <-. rewrite Ee.
      unfold rg_get_envelope. destruct (rg_env (pg_shell p)) as [e'|] eqn:C'; cbn [snd]; rewrite env_copy; [now apply ring_cache|rewrite rg_compute_envelope_eq; apply same_points_refl].
Qed.
(** Whatever was done before, the envelope is the smallest box around the shell. *)
Theorem C68_envelope : forall p, poly_made p -> Forall nn_xy (spts p) -> let e := snd (pg_get_envelope p) in
  Forall (fun c => in_box e (cx c) (cy c)) (spts p) /\
  (forall b, wf_env b -> Forall (fun c => in_box b (cx c) (cy c)) (spts p) -> subset e b) /\
  spts (fst (pg_get_envelope p)) = spts p /\ pg_holes (fst (pg_get_envelope p)) = pg_holes p.
Proof.
  intros p M F e. destruct (poly_cache p M F) as (Mr & K). unfold e, pg_get_envelope. destruct (pg_env p) as [e'|] eqn:C; cbn [fst snd].
  - rewrite env_copy. specialize (K e' eq_refl). split; [|split; [|auto]].
    + apply Forall_forall. intros c I. apply K. now apply envelope_of_covers.
    + intros b W G x y X. apply K in X. revert x y X. now apply envelope_of_least.
  - destruct (C67_ring_envelope _ Mr F) as (A & B & D). destruct (rg_get_envelope (pg_shell p)) as (s & e') eqn:G. cbn [fst snd] in *. rewrite env_copy. auto.
Qed.

(** ** Equality and order *)
Theorem C68_equals_exact : forall hypot p q t, exists b, pg_equals_exact hypot p q t = Ok b /\
  (b = true <-> Forall2 (Forall2 (fun a b => if feqb t f0 then pt_eq a b else fleb (hypot (fsub (cx a) (cx b)) (fsub (cy a) (cy b))) t = true)) (spts p :: hpts p) (spts q :: hpts q)).
Proof.
  intros hypot p q t. set (close := fun a b => if feqb t f0 then pt_eq a b else fleb (hypot (fsub (cx a) (cx b)) (fsub (cy a) (cy b))) t = true).
  assert (forall r s, exists b, rg_equals_exact hypot r s t = Ok b /\ (b = true <-> Forall2 close (rpts r) (rpts s))) as RE by (intros; apply C67_ring_equals_exact).
  set (test := fun r s => match rg_equals_exact hypot r s t with Ok b => b | Panic => false end).
  assert (forall r s, rg_equals_exact hypot r s t = Ok (test r s) /\ (test r s = true <-> Forall2 close (rpts r) (rpts s))) as TE.
  { intros r s. destruct (RE r s) as (b & E & H). unfold test. rewrite E. auto. }
  unfold pg_equals_exact. rewrite !rg_copy_id. cbn [bind]. destruct (TE (mkRg (rg_seq (pg_shell p)) None None) (mkRg (rg_seq (pg_shell q)) None None)) as (-> & T0). cbn [bind].
  change (Forall2 close (spts p) (spts q)) with (Forall2 close (rpts (mkRg (rg_seq (pg_shell p)) None None)) (rpts (mkRg (rg_seq (pg_shell q)) None None))) in *.
  destruct (test _ _); cbn [negb].
  - destruct (Nat.eqb_spec (length (pg_holes p)) (length (pg_holes q))) as [L|L]; cbn [negb].
    + rewrite (pairs_loop test (pg_holes p) (pg_holes q)); [|exact L|].
      * eexists. split; [reflexivity|]. rewrite all_pairs_F2. split.
        -- intros H. constructor; [now apply T0|]. unfold hpts. clear - H TE. induction H as [|a b l m T H IH]; cbn; constructor; [now apply TE|exact IH].
        -- intros H. inversion H as [|? ? ? ? _ H']; subst. unfold hpts in H'. clear - H' TE. revert H'. generalize (pg_holes p) (pg_holes q). induction l as [|a l IH]; intros [|b m] H; cbn in H; inversion H; subst; constructor; [now apply TE|now apply IH].
      * intros i x y X Y. unfold idx. rewrite X, Y. cbn [bind]. destruct (TE x y) as (-> & _). reflexivity.
    + exists false. split; [reflexivity|]. split; [discriminate|]. intros F. apply Forall2_length in F. unfold hpts in F. cbn in F. rewrite !map_length in F. lia.
  - exists false. split; [reflexivity|]. split; [discriminate|]. intros F. inversion F as [|? ? ? ? F0 _]; subst. apply T0 in F0. discriminate.
Qed.
(** Polygons are ordered by their shells, then hole by hole; rings as lists of
    points, lexicographically; missing holes come first. *)
Lemma lexcmp_map {A B} (f : A -> B) cmp l m : lexcmp (fun a b => cmp (f a) (f b)) l m = lexcmp cmp (map f l) (map f m).
Proof. revert m. induction l as [|a l IH]; intros [|b m]; cbn; auto. now rewrite IH. Qed.
Lemma pg_compare_eq p q : pg_compare p q = Ok (lexcmp arr_compare (spts p :: hpts p) (spts q :: hpts q)).
Proof.
  unfold pg_compare. rewrite (pg_compare_by_lex rg_compare (fun a b => arr_compare (rpts a) (rpts b))).
  - f_equal. rewrite (lexcmp_map rpts arr_compare). reflexivity.
  - intros a b _ _. unfold rg_compare. now rewrite seq_compare_points_arr.
Qed.
Lemma arr_compare_on l m : Forall nn_xy l -> Forall nn_xy m ->
  (arr_compare l m = -1 \/ arr_compare l m = 0 \/ arr_compare l m = 1)%Z /\ (arr_compare l m = (-1)%Z <-> lex_lt l m) /\ (arr_compare l m = 0%Z <-> same_pts l m).
Proof. intros F G. split; [apply arr_compare_range|]. split; [now apply arr_compare_lt|now apply arr_compare_zero]. Qed.
Lemma lexcmp_antisym {A} (cmp : A -> A -> Z) l m : (forall a b, cmp b a = - cmp a b)%Z -> (lexcmp cmp m l = - lexcmp cmp l m)%Z.
Proof.
  intros S. revert m. induction l as [|a l IH]; intros [|b m]; cbn; auto. rewrite (S a b). destruct (Z.eqb_spec (cmp a b) 0), (Z.eqb_spec (- cmp a b) 0); auto; lia.
Qed.
Theorem C68_compare : forall p q, exists c, pg_compare p q = Ok c /\ pg_compare q p = Ok (- c)%Z /\
  (Forall (Forall nn_xy) (spts p :: hpts p) -> Forall (Forall nn_xy) (spts q :: hpts q) ->
    (c = -1 \/ c = 0 \/ c = 1)%Z /\ (c = -1 <-> lexi lex_lt same_pts (spts p :: hpts p) (spts q :: hpts q))%Z /\
    (c = 0 <-> Forall2 same_pts (spts p :: hpts p) (spts q :: hpts q))%Z).
Proof.
  intros p q. rewrite !pg_compare_eq. eexists. split; [reflexivity|]. split; [f_equal; apply lexcmp_antisym, arr_compare_antisym|].
  intros F G. apply (lexcmp_on (Forall nn_xy) arr_compare lex_lt same_pts); auto using arr_compare_on.
Qed.
Theorem C68_compare_with : forall limit p q, Forall (fun r => small_seq (rg_seq r)) (pg_shell p :: pg_holes p) -> Forall (fun r => small_seq (rg_seq r)) (pg_shell q :: pg_holes q) ->
  exists c, pg_compare_with limit p q = Ok c /\ (c = -1 \/ c = 0 \/ c = 1)%Z /\
    (c = -1 <-> lexi (fun a b => seq_lt limit (rg_seq a) (rg_seq b)) (fun a b => seq_eq limit (rg_seq a) (rg_seq b)) (pg_shell p :: pg_holes p) (pg_shell q :: pg_holes q))%Z /\
    (c = 0 <-> Forall2 (fun a b => seq_eq limit (rg_seq a) (rg_seq b)) (pg_shell p :: pg_holes p) (pg_shell q :: pg_holes q))%Z.
Proof.
  intros limit p q F G. set (f := fun a b => match seq_compare limit (rg_seq a) (rg_seq b) with Ok c => c | Panic => 0%Z end).
  assert (forall a b, small_seq (rg_seq a) -> small_seq (rg_seq b) -> seq_compare limit (rg_seq a) (rg_seq b) = Ok (f a b) /\
    (f a b = -1 \/ f a b = 0 \/ f a b = 1)%Z /\ (f a b = (-1)%Z <-> seq_lt limit (rg_seq a) (rg_seq b)) /\ (f a b = 0%Z <-> seq_eq limit (rg_seq a) (rg_seq b))) as H.
  { intros a b A B. destruct (C24_sequence_order limit _ _ A B) as (c & E & R & L & _ & Q). unfold f. rewrite E. auto. }
  unfold pg_compare_with. rewrite (pg_compare_by_lex _ f).
  - eexists. split; [reflexivity|]. apply (lexcmp_on (fun r => small_seq (rg_seq r)) f (fun a b => seq_lt limit (rg_seq a) (rg_seq b)) (fun a b => seq_eq limit (rg_seq a) (rg_seq b))); auto.
    intros a b A B. now apply H.
  - intros a b A B. unfold rg_compare_with. cbn [rg_seq]. apply H; [exact (proj1 (Forall_forall _ _) F a A)|exact (proj1 (Forall_forall _ _) G b B)].
Qed.
