(** C78: the packed coordinate sequence base type (packed_coordinate_sequence.rs). *)
From Coq Require Import ZArith Bool List Lia.
From Verif Require Import Base F64 Coordinate_model CoordArrays_model CoordSeq_model CoordSeq_proofs CoordSeq_props PackedSeq_model Polygon_proofs.
Import ListNotations.
Open Scope Z_scope.

Definition is_i32 (z : Z) : Prop := -2147483648 <= z <= 2147483647.

(** A call of one of the mutating methods ([set_x], [set_y], [set_ordinate])
    that returned. *)
Inductive reaches (i : Z -> res Z) (d m : Z) : PSeq -> Prop :=
| reaches_new s : ps_new i d m = Ok (Some s) -> reaches i d m s
| reaches_set s s' k o v : reaches i d m s -> ps_set s k o v = Ok s' -> reaches i d m s'.

Lemma i32_chk_in z : is_i32 z -> i32_chk z = Ok z.
Proof.
  unfold is_i32, i32_chk, i32_min, i32_max. intros H.
  destruct (Z.leb_spec (-2147483648) z), (Z.leb_spec z 2147483647); try lia. reflexivity.
Qed.
Lemma i32_chk_out z : ~ is_i32 z -> i32_chk z = Panic.
Proof.
  unfold is_i32, i32_chk, i32_min, i32_max. intros H.
  destruct (Z.leb_spec (-2147483648) z), (Z.leb_spec z 2147483647); try reflexivity. exfalso. lia.
Qed.
Lemma i32_wrap_in z : is_i32 z -> i32_wrap z = z.
Proof. unfold is_i32, i32_wrap. intros H. rewrite Z.mod_small; lia. Qed.
Lemma i32_any_in i z : i32_arith i -> is_i32 z -> i z = Ok z.
Proof. intros [-> | ->] H; [now apply i32_chk_in | now rewrite i32_wrap_in]. Qed.

(** Every state a sequence can be in has the dimension and measures it was made
    with and no coordinates. *)
Lemma reaches_empty i d m s : reaches i d m s -> s = mkPSeq d m [].
Proof.
  induction 1 as [s E | s s' k o v _ IH E].
  - unfold ps_new in E. destruct (i (d - m)) as [z|]; [|discriminate E]. cbn [bind] in E.
    destruct (z <? 2); [discriminate E|]. now injection E as <-.
  - subst s. unfold ps_set in E. cbn [pscoords] in E. destruct k; discriminate E.
Qed.

(** The constructor: a sequence exactly when two spatial dimensions remain;
    an overflowing difference panics with overflow checks on. *)
Theorem C78_new : forall i d m, i32_arith i -> is_i32 (d - m) ->
  (2 <= d - m -> exists s, ps_new i d m = Ok (Some s) /\ psdim s = d /\ psmeas s = m) /\
  (d - m < 2 -> ps_new i d m = Ok None).
Proof.
  intros i d m A I. unfold ps_new. rewrite (i32_any_in i _ A I). cbn [bind].
  destruct (Z.ltb_spec (d - m) 2); split; intros; try lia; try reflexivity. eexists. repeat split.
Qed.
Theorem C78_new_overflow : forall d m, ~ is_i32 (d - m) -> ps_new i32_chk d m = Panic.
Proof. intros d m I. unfold ps_new. now rewrite i32_chk_out. Qed.
(** No sequence of calls puts a coordinate into it: it stays of size 0, and
    every read or write of a coordinate panics. *)
Theorem C78_always_empty : forall i d m s, reaches i d m s ->
  ps_size s = 0%nat /\ ps_to_array s = Ok [] /\ psdim s = d /\ psmeas s = m /\
  forall k o v c,
    ps_get s k o = Panic /\ ps_set s k o v = Panic /\ ps_coord s k = Panic /\ ps_coord_into i s k c = Panic.
Proof.
  intros i d m s H. rewrite (reaches_empty _ _ _ _ H). repeat split; destruct k; reflexivity.
Qed.
Theorem C78_store_refuted : ~ (forall d m s k v, reaches i32_chk d m s ->
  exists s', ps_set s k 0 v = Ok s' /\ ps_get s' k 0 = Ok v).
Proof.
  intros H. destruct (H 2 0 (mkPSeq 2 0 []) 0%nat f1) as (s' & E & _); [apply reaches_new; reflexivity|]. discriminate E.
Qed.
(** What it says about Z and M. *)
Theorem C78_has_z_has_m : forall i d m s, i32_arith i -> is_i32 (d - m) -> reaches i d m s ->
  ps_has_z i s = Ok (3 <=? d - m) /\ (ps_has_m s = true <-> 0 < m) /\
  (forall k, d - m = 2 -> ps_get_z i s k = Ok fnan) /\ (forall k, m <= 0 -> ps_get_m i s k = Ok fnan) /\
  (forall k, 2 < d - m -> ps_get_z i s k = Panic) /\ (forall k, 0 < m -> ps_get_m i s k = Panic).
Proof.
  intros i d m s A I H. rewrite (reaches_empty _ _ _ _ H). unfold ps_get_z, ps_get_m, ps_has_z, ps_has_m, ps_get. cbn [psdim psmeas pscoords].
  rewrite (i32_any_in i _ A I). cbn [bind]. rewrite !Z.gtb_ltb.
  repeat split; try (intros; destruct (Z.ltb_spec 0 m), (Z.ltb_spec 2 (d - m)); try lia; try reflexivity; try discriminate; destruct k; reflexivity).
  destruct (Z.ltb_spec 2 (d - m)), (Z.leb_spec 3 (d - m)); try lia; reflexivity.
Qed.
(** [copy] gives an empty packed double sequence of the same dimension whose
    measure count is [max 0 (dimension - 3)]; the factory keeps both. *)
Theorem C78_copy : forall i d m s, i32_arith i -> is_i32 (d - 3) -> reaches i d m s ->
  exists p, ps_copy i s = Ok p /\ pdim p = d /\ pmeas p = Z.max 0 (d - 3) /\ pcoords p = [].
Proof.
  intros i d m s A I H. rewrite (reaches_empty _ _ _ _ H). unfold ps_copy. cbn [psdim]. rewrite (i32_any_in i _ A I).
  eexists. repeat split.
Qed.
Theorem C78_copy_measures_refuted : ~ (forall d m s p, reaches i32_chk d m s -> ps_copy i32_chk s = Ok p -> pmeas p = m).
Proof.
  intros H. specialize (H 3 1 (mkPSeq 3 1 []) (mkPacked 3 0 [])). discriminate H; [apply reaches_new; reflexivity|reflexivity].
Qed.
Theorem C78_factory : forall i d m s, reaches i d m s -> packed_create_from_ps s = Ok (mkPacked d m []).
Proof. intros i d m s H. now rewrite (reaches_empty _ _ _ _ H). Qed.
(** The factory's sized sequences: [n] points, every ordinate NaN. *)
Theorem C78_sized : forall n d m, 0 < d <= 2147483647 -> Z.of_nat n * d <= usize_max ->
  exists p, packed_create_meas n d m = Ok p /\ pdim p = d /\ pmeas p = m /\ packed_size p = Ok n /\
  forall k o, (k < n)%nat -> 0 <= o < d -> packed_get p k o = Ok fnan.
Proof.
  intros n d m D B. unfold packed_create_meas, packed_new_size.
  rewrite usize_wrap_small by (unfold usize_max; lia). rewrite usize_chk_ok by lia. cbn [bind].
  eexists. split; [reflexivity|]. cbn [pdim pmeas]. repeat split.
  - unfold packed_size. cbn [pdim pcoords]. rewrite usize_wrap_small by (unfold usize_max; lia).
    rewrite (proj2 (Z.eqb_neq d 0)) by lia. rewrite repeat_length, Z2Nat.id by lia. rewrite Z.div_mul by lia. now rewrite Nat2Z.id.
  - intros k o K O. unfold packed_get, pidx. cbn [pdim pcoords].
    assert (0 <= Z.of_nat k * d + o < Z.of_nat n * d) by (assert (Z.of_nat k + 1 <= Z.of_nat n) by lia; nia).
    rewrite !usize_wrap_small by (unfold usize_max; lia).
    rewrite !usize_chk_ok by nia. cbn [bind]. rewrite usize_chk_ok by lia. cbn [bind].
    rewrite (idx_nth _ _ fnan) by (rewrite repeat_length; lia). f_equal. apply nth_repeat.
Qed.
Example C78_example :
  (exists s, reaches i32_chk 4 1 s /\ ps_has_z i32_chk s = Ok true /\ ps_has_m s = true /\ ps_get s 0 0 = Panic) /\
  (exists p, packed_create_meas 2 3 0 = Ok p /\ packed_size p = Ok 2%nat) /\ ps_new i32_chk 2 1 = Ok None.
Proof.
  split; [|split].
  - exists (mkPSeq 4 1 []). split; [apply reaches_new; reflexivity|]. repeat split.
  - eexists. split; reflexivity.
  - reflexivity.
Qed.
