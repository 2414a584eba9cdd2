(** C84: the ray crossing counter as its documentation promises: segments in
    any order, segments off the ray left out, any number of rings. *)
From Coq Require Import ZArith Bool List Permutation Lia.
From Flocq Require Import Core IEEE754.BinarySingleNaN.
From Verif Require Import Base F64 F64Facts Coordinate_model CoordSeq_proofs Orientation_model Orientation_props PointLocation_model PointLocation_spec PointLocation_proofs PointLocation_props.
Import ListNotations.
Open Scope Z_scope.

Notation Seg := (Coordinate * Coordinate)%type.
(** ** The effect of one segment *)
(** What one segment does to a fresh counter: the number it adds, and whether it
    finds the point on the segment. *)
Definition adds (p : Coordinate) (s : Seg) : Z :=
  match count_segment (counter_new p) (snd s) (fst s) with Ok c => ccount c | Panic => 0 end.
Definition finds (p : Coordinate) (s : Seg) : bool :=
  match count_segment (counter_new p) (snd s) (fst s) with Ok c => con c | Panic => false end.
Lemma count_effect p s n o : 0 <= n < i32_max ->
  (adds p s = 0 \/ adds p s = 1) /\ count_segment (mkCounter p n o) (snd s) (fst s) = Ok (mkCounter p (n + adds p s) (o || finds p s)).
Proof.
  intros N. unfold adds, finds. destruct s as [a b]. cbn [fst snd]. unfold count_segment. cbn [cpt ccount con counter_new].
  assert (I : forall x, 0 <= x <= i32_max -> i32_chk x = Ok x).
  { intros x X. unfold i32_chk. unfold i32_max in *. destruct (_ && _) eqn:E; [reflexivity|]. exfalso. apply andb_false_iff in E. unfold i32_min, i32_max in E. destruct E as [E|E]; apply Z.leb_gt in E; lia. }
  change (0 + 1)%Z with 1%Z. rewrite (I 1) by (unfold i32_max; lia). rewrite (I (n + 1)) by lia. cbn [bind].
  repeat match goal with
  | |- context [let '(_, _) := (if ?b then _ else _) in _] => destruct b
  | |- context [if ?b then _ else _] => destruct b
  end; cbn [ccount con]; rewrite ?Z.add_0_r, ?orb_true_r, ?orb_false_r; auto.
Qed.
Fixpoint total (p : Coordinate) (l : list Seg) : Z :=
  match l with [] => 0 | s :: t => adds p s + total p t end.
Lemma adds_01 p s : adds p s = 0 \/ adds p s = 1.
Proof. apply (count_effect p s 0 false). unfold i32_max. lia. Qed.
Lemma count_total p l : forall n o, 0 <= n -> n + Z.of_nat (length l) <= i32_max ->
  count_all (mkCounter p n o) l = Ok (mkCounter p (n + total p l) (o || existsb (finds p) l)).
Proof.
  induction l as [|[a b] l IH]; intros n o N L; cbn [count_all total existsb].
  - now rewrite Z.add_0_r, orb_false_r.
  - cbn [length] in L. destruct (count_effect p (a, b) n o ltac:(lia)) as (A & E). cbn [fst snd] in E. rewrite E. cbn [bind].
    rewrite IH by lia. f_equal. f_equal; [lia|]. now rewrite orb_assoc.
Qed.
Lemma total_app p l l' : total p (l ++ l') = total p l + total p l'.
Proof. induction l as [|s l IH]; cbn; lia. Qed.
Lemma total_perm p l l' : Permutation l l' -> total p l = total p l'.
Proof. induction 1; cbn [total]; lia. Qed.
Lemma existsb_perm {A} (f : A -> bool) l l' : Permutation l l' -> existsb f l = existsb f l'.
Proof. induction 1; cbn; try congruence. now rewrite !orb_assoc, (orb_comm (f y)). Qed.
Lemma total_nonneg p l : 0 <= total p l.
Proof. induction l as [|s l IH]; cbn [total]; [lia|]. pose proof (adds_01 p s). lia. Qed.

(** ** Any order *)
(** The counter at the end does not depend on the order of the segments: same
    count, same flag, for all doubles. *)
Theorem C84_any_order : forall p l l', Permutation l l' -> Z.of_nat (length l) <= i32_max ->
  exists c, count_all (counter_new p) l = Ok c /\ count_all (counter_new p) l' = Ok c.
Proof.
  intros p l l' P L. pose proof (Permutation_length P) as E. unfold counter_new. rewrite !count_total by lia.
  rewrite (total_perm p l l' P), (existsb_perm _ l l' P). eauto.
Qed.

(** ** Segments off the ray *)
(** A segment wholly to the left of the point, wholly above or wholly below it. *)
Definition off_ray (p : Coordinate) (s : Seg) : bool :=
  (fltb (cx (fst s)) (cx p) && fltb (cx (snd s)) (cx p)) ||
  (fltb (cy p) (cy (fst s)) && fltb (cy p) (cy (snd s))) ||
  (fltb (cy (fst s)) (cy p) && fltb (cy (snd s)) (cy p)).
Lemma lt_not x y : fltb x y = true -> feqb x y = false /\ feqb y x = false /\ fgtb x y = false /\ fleb y x = false.
Proof.
  intros H. destruct (fltb_nn x y H) as (X & Y). rewrite fltb_rank in H by assumption. apply Z.ltb_lt in H.
  rewrite !feqb_rank, fgtb_rank, fleb_rank by assumption.
  repeat split; try (apply Z.eqb_neq; lia); [apply Z.ltb_ge|apply Z.leb_gt]; lia.
Qed.
Lemma off_none p s : off_ray p s = true -> adds p s = 0 /\ finds p s = false.
Proof.
  destruct s as [a b]. unfold off_ray, adds, finds, count_segment. cbn [fst snd cpt ccount con counter_new]. intros H.
  apply orb_true_iff in H. destruct H as [H|H]; [apply orb_true_iff in H; destruct H as [H|H]|]; apply andb_true_iff in H; destruct H as (A & B).
  - rewrite A, B. cbn [andb ccount con]. auto.
  - destruct (lt_not _ _ A) as (A1 & A2 & A3 & A4), (lt_not _ _ B) as (B1 & B2 & B3 & B4).
    rewrite ?A1, ?A2, ?A4, ?B1, ?B2, ?B4. rewrite !andb_false_r. cbn [orb]. destruct (_ && _); cbn [ccount con]; auto.
  - destruct (lt_not _ _ A) as (A1 & A2 & A3 & A4), (lt_not _ _ B) as (B1 & B2 & B3 & B4).
    rewrite ?A1, ?A2, ?A3, ?B1, ?B2, ?B3. rewrite !andb_false_r. cbn [andb orb]. destruct (_ && _); cbn [ccount con]; auto.
Qed.
(** They need not be counted. *)
Theorem C84_skip : forall p l, Z.of_nat (length l) <= i32_max ->
  exists c, count_all (counter_new p) l = Ok c /\ count_all (counter_new p) (filter (fun s => negb (off_ray p s)) l) = Ok c.
Proof.
  intros p l L.
  assert (F : (length (filter (fun s => negb (off_ray p s)) l) <= length l)%nat).
  { clear L. induction l as [|s l IH]; cbn [filter length]; [lia|]. destruct (negb _); cbn [length]; lia. }
  unfold counter_new. rewrite !count_total by lia. eexists. split; [reflexivity|]. clear L F.
  assert (total p (filter (fun s => negb (off_ray p s)) l) = total p l /\ existsb (finds p) (filter (fun s => negb (off_ray p s)) l) = existsb (finds p) l) as (-> & ->); [|reflexivity].
  induction l as [|s l (IH1 & IH2)]; cbn [filter]; [auto|]. destruct (off_ray p s) eqn:O; cbn [negb total existsb].
  - destruct (off_none p s O) as (-> & ->). cbn [orb]. auto.
  - rewrite IH1, IH2. auto.
Qed.

(** ** Several rings *)
Lemma locate_total p r : Z.of_nat (length (segs r)) <= i32_max ->
  locate_vec p r = Ok (get_location (mkCounter p (total p (segs r)) (existsb (finds p) (segs r)))).
Proof.
  intros L. rewrite locate_vec_list. destruct (locate_list_all (segs r) (counter_new p)) as (c & E & H); [cbn; lia|cbn [counter_new ccount]; lia|].
  rewrite (H eq_refl). unfold counter_new in E. rewrite count_total in E by lia. injection E as <-. reflexivity.
Qed.
Lemma rem_even_odd n : 0 <= n -> (Z.rem n 2 =? 1) = Z.odd n.
Proof.
  intros N. rewrite Z.rem_mod_nonneg by lia. rewrite Zmod_odd. destruct (Z.odd n); reflexivity.
Qed.
Lemma loc_boundary p n o : get_location (mkCounter p n o) = BOUNDARY <-> o = true.
Proof. unfold get_location. cbn [con ccount]. destruct o; [tauto|]. destruct (_ =? 1); split; discriminate. Qed.
Lemma loc_interior p n o : 0 <= n -> (get_location (mkCounter p n o) = INTERIOR <-> o = false /\ Z.odd n = true).
Proof.
  intros N. unfold get_location. cbn [con ccount]. rewrite rem_even_odd by exact N.
  destruct o; [split; [discriminate|intros (? & _); discriminate]|]. destruct (Z.odd n); split; try discriminate; auto. intros (_ & ?); discriminate.
Qed.
Definition holds (p : Coordinate) (ring : list Coordinate) : Prop := locate_vec p ring = Ok INTERIOR.
Definition touches (p : Coordinate) (ring : list Coordinate) : Prop := locate_vec p ring = Ok BOUNDARY.
Lemma ok_eq {A} (a b : A) : Ok a = Ok b <-> a = b.
Proof. split; [intros H; injection H; auto|congruence]. Qed.
(** All segments of any number of rings fed to one counter: the point is on the
    boundary when it is on that of some ring, and otherwise inside when the number
    of rings that hold it is odd. *)
Theorem C84_rings : forall p rings, Z.of_nat (length (concat (map segs rings))) <= i32_max ->
  exists c, count_all (counter_new p) (concat (map segs rings)) = Ok c /\
    (get_location c = BOUNDARY <-> exists r, In r rings /\ touches p r) /\
    ((forall r, In r rings -> ~ touches p r) -> exists k, count_of (holds p) rings k /\ (get_location c = INTERIOR <-> Nat.Odd k)).
Proof.
  intros p rings L. unfold counter_new. rewrite count_total by lia. eexists. split; [reflexivity|]. rewrite Z.add_0_l. cbn [orb].
  assert (S : forall r, In r rings -> Z.of_nat (length (segs r)) <= i32_max).
  { intros r I. apply in_split in I. destruct I as (a & b & ->). rewrite map_app, concat_app in L. cbn [map concat] in L. rewrite !app_length in L. lia. }
  assert (T : forall r, In r rings -> (touches p r <-> existsb (finds p) (segs r) = true)).
  { intros r I. unfold touches. rewrite locate_total by now apply S. rewrite ok_eq. apply loc_boundary. }
  split.
  - rewrite loc_boundary. clear L. split.
    + intros H. apply existsb_exists in H. destruct H as (s & I & F). apply in_concat in I. destruct I as (q & I & J). apply in_map_iff in I. destruct I as (r & <- & I).
      exists r. split; [exact I|]. apply T; [exact I|]. apply existsb_exists. eauto.
    + intros (r & I & F). apply T in F; [|exact I]. apply existsb_exists in F. destruct F as (s & J & F). apply existsb_exists. exists s. split; [|exact F].
      apply in_concat. exists (segs r). split; [now apply in_map|exact J].
  - intros N. assert (existsb (finds p) (concat (map segs rings)) = false) as ->.
    { apply not_true_is_false. intros H. apply existsb_exists in H. destruct H as (s & I & F). apply in_concat in I. destruct I as (q & I & J). apply in_map_iff in I. destruct I as (r & <- & I).
      apply (N r I). apply T; [exact I|]. apply existsb_exists. eauto. }
    assert (exists k, count_of (holds p) rings k /\ (Z.odd (total p (concat (map segs rings))) = true <-> Nat.Odd k)) as (k & C & O).
    { clear L. induction rings as [|r rings IH]; [exists 0%nat; split; [constructor|]; cbn; split; [discriminate|intros (x & E); lia]|].
      destruct IH as (k & C & O); [intros; apply S; now right|intros; apply T; now right|intros; apply N; now right|].
      cbn [map concat]. rewrite total_app.
      assert (H : holds p r <-> Z.odd (total p (segs r)) = true).
      { unfold holds. rewrite locate_total by (apply S; now left). rewrite ok_eq, loc_interior by apply total_nonneg.
        assert (existsb (finds p) (segs r) = false) as ->; [|tauto]. apply not_true_is_false. intros E. apply (N r (or_introl eq_refl)). apply T; [now left|exact E]. }
      rewrite Z.odd_add. destruct (Z.odd (total p (segs r))) eqn:E.
      - exists (Datatypes.S k). split; [apply co_yes; [apply H; reflexivity|exact C]|]. rewrite Nat.Odd_succ. destruct (Z.odd (total p (concat (map segs rings)))); cbn [xorb].
        + split; [discriminate|]. intros V. exfalso. apply (Nat.Even_Odd_False k V). now apply O.
        + split; [|reflexivity]. intros _. destruct (Nat.Even_or_Odd k) as [V|V]; [exact V|]. apply O in V. discriminate.
      - exists k. split; [apply co_no; [intros V; apply H in V; discriminate|exact C]|]. rewrite xorb_false_l. exact O. }
    exists k. split; [exact C|]. rewrite loc_interior by apply total_nonneg. rewrite <- O. tauto.
Qed.
(** A polygon: a shell, and holes that hold the point only if the shell does, no
    two of them at once.  Inside means in the shell and in no hole. *)
Theorem C84_polygon : forall p shell holes, Z.of_nat (length (concat (map segs (shell :: holes)))) <= i32_max ->
  (forall h, In h holes -> holds p h -> holds p shell) -> ForallOrdPairs (fun h h' => ~ (holds p h /\ holds p h')) holes ->
  exists c, count_all (counter_new p) (concat (map segs (shell :: holes))) = Ok c /\
    (get_location c = BOUNDARY <-> exists r, In r (shell :: holes) /\ touches p r) /\
    (get_location c = INTERIOR <-> holds p shell /\ forall h, In h holes -> ~ touches p h /\ ~ holds p h).
Proof.
  intros p shell holes L W D. destruct (C84_rings p (shell :: holes) L) as (c & E & B & I). exists c. split; [exact E|]. split; [exact B|].
  assert (O : forall k, count_of (holds p) holes k -> (k <= 1)%nat /\ (k = 0%nat <-> forall h, In h holes -> ~ holds p h)).
  { clear - D. induction D as [|h t H D IH]; intros k C; inversion C; subst.
    - split; [lia|]. split; [intros _ h []|reflexivity].
    - destruct (IH k0 H4) as (_ & Z). assert (k0 = 0%nat) as ->.
      { apply Z. intros h' J V. rewrite Forall_forall in H. apply (H h' J). auto. }
      split; [lia|]. split; [discriminate|]. intros V. exfalso. apply (V h); [now left|assumption].
    - destruct (IH k H4) as (K & Z). split; [exact K|]. rewrite Z. split; intros V h' J; [destruct J as [<-|J]; [assumption|now apply V]|apply V; now right]. }
  split.
  - intros G. assert (N : forall r, In r (shell :: holes) -> ~ touches p r).
    { intros r J T. assert (get_location c = BOUNDARY) as F by (apply B; eauto). rewrite G in F. discriminate. }
    destruct (I N) as (k & C & K). apply K in G. inversion C; subst.
    + split; [assumption|]. destruct (O k0 H3) as (M & Z). assert (k0 = 0%nat) as Y by (destruct G; lia).
      intros h J. split; [apply N; now right|]. now apply Z.
    + exfalso. destruct (O k H3) as (M & Z). assert (k = 1%nat) as -> by (destruct G; lia).
      assert (1 = 0)%nat; [|lia]. apply Z. intros h J V. apply H1. now apply (W h).
  - intros (S & H). assert (N : forall r, In r (shell :: holes) -> ~ touches p r).
    { intros r [<-|J]; [|now apply H]. unfold holds, touches in *. rewrite S. discriminate. }
    destruct (I N) as (k & C & K). apply K. inversion C as [|? ? k0 _ C0|]; subst; [|contradiction].
    destruct (O k0 C0) as (_ & Z). assert (k0 = 0%nat) as -> by (apply Z; intros h J; now apply H). exists 0%nat. reflexivity.
Qed.
(** On a grid the direction of each ring does not matter. *)
Theorem C84_directions : forall e p rings rings', Z.of_nat (length (concat (map segs rings))) <= i32_max ->
  Forall2 (fun r r' => grid_ring e p r /\ (r' = r \/ r' = rev r)) rings rings' ->
  exists c c', count_all (counter_new p) (concat (map segs rings)) = Ok c /\ count_all (counter_new p) (concat (map segs rings')) = Ok c' /\
    get_location c = get_location c'.
Proof.
  intros e p rings rings' L F.
  assert (S : length (concat (map segs rings)) = length (concat (map segs rings'))).
  { clear L. induction F as [|r r' t t' (_ & H) F IH]; [reflexivity|]. cbn [map concat]. rewrite !app_length, IH, !segs_length. destruct H as [-> | ->]; [|rewrite rev_length]; reflexivity. }
  assert (Q : Forall2 (fun r r' => locate_vec p r' = locate_vec p r) rings rings').
  { clear L S. induction F as [|r r' t t' (G & H) F IH]; constructor; [|exact IH]. destruct H as [-> | ->]; [reflexivity|now apply C50_reverse with e]. }
  destruct (C84_rings p rings L) as (c & E & B & I). destruct (C84_rings p rings') as (c' & E' & B' & I'); [now rewrite <- S|].
  exists c, c'. split; [exact E|]. split; [exact E'|].
  assert (T : forall k, (exists r, In r rings /\ locate_vec p r = Ok k) <-> (exists r, In r rings' /\ locate_vec p r = Ok k)).
  { intros k. clear - Q. induction Q as [|r r' t t' H Q IH]; [tauto|]. split; intros (x & [<-|J] & V).
    - exists r'. split; [now left|congruence].
    - destruct (proj1 IH (ex_intro _ x (conj J V))) as (y & Y & W). exists y. split; [now right|exact W].
    - exists r. split; [now left|congruence].
    - destruct (proj2 IH (ex_intro _ x (conj J V))) as (y & Y & W). exists y. split; [now right|exact W]. }
  assert (G : forall c, get_location c = BOUNDARY \/ get_location c = INTERIOR \/ get_location c = EXTERIOR).
  { intros d. unfold get_location. destruct (con d); [auto|]. destruct (_ =? 1); auto. }
  unfold touches in B, B'. rewrite (T BOUNDARY) in B.
  destruct (G c) as [X|X]; [destruct (proj1 B X) as (r & J); rewrite X; symmetry; apply B'; eauto|].
  assert (N' : get_location c <> BOUNDARY) by (destruct X as [X|X]; rewrite X; discriminate).
  assert (N : forall r, In r rings' -> ~ touches p r) by (intros r J V; apply N', B; exists r; auto).
  destruct (I' N) as (k' & C' & K').
  destruct I as (k & C & K).
  { intros r J V. apply N', B. apply T. exists r. auto. }
  assert (k = k') as <-.
  { clear - Q C C'. revert k k' C C'. induction Q as [|r r' t t' H Q IH]; intros k k' C C'; inversion C; inversion C'; subst; try reflexivity.
    - f_equal. eauto.
    - exfalso. unfold holds in *. congruence.
    - exfalso. unfold holds in *. congruence.
    - eauto. }
  destruct (G c') as [X'|X']; [exfalso; apply B' in X'; apply N'; now apply B|].
  rewrite <- K' in K. destruct X as [X|X], X' as [X'|X']; rewrite X, X' in *; try reflexivity; exfalso.
  - assert (EXTERIOR = INTERIOR) as W by (apply K; reflexivity). discriminate W.
  - assert (EXTERIOR = INTERIOR) as W by (apply K; reflexivity). discriminate W.
Qed.
(** A square with a square hole: inside, in the hole, on the border of the hole, outside;
    a segment to the left is skipped. *)
Definition square (a b : Z) : list Coordinate := [ipt a a; ipt b a; ipt b b; ipt a b; ipt a a].
Definition in_polygon (p : Coordinate) : res Z :=
  c <- count_all (counter_new p) (concat (map segs [square 0 9; square 3 6])) ;; Ok (get_location c).
Example C84_example :
  in_polygon (ipt 1 4) = Ok INTERIOR /\ in_polygon (ipt 4 5) = Ok EXTERIOR /\ in_polygon (ipt 3 4) = Ok BOUNDARY /\ in_polygon (ipt 12 4) = Ok EXTERIOR /\
  holds (ipt 4 5) (square 0 9) /\ holds (ipt 4 5) (square 3 6) /\ ~ holds (ipt 1 4) (square 3 6) /\
  off_ray (ipt 4 5) (ipt 0 9, ipt 0 0) = true /\ off_ray (ipt 4 5) (ipt 9 0, ipt 9 9) = false.
Proof. repeat split; try (vm_compute; reflexivity). intros H. assert (locate_vec (ipt 1 4) (square 3 6) = Ok EXTERIOR) as E by (vm_compute; reflexivity). unfold holds in H. rewrite E in H. discriminate H. Qed.
(** The two squares meet the conditions, one of them reversed; at a point of the
    hole the conditions on holes hold. *)
Example C84_directions_example : let p := ipt 4 5 in
  Forall2 (fun r r' => grid_ring 0 p r /\ (r' = r \/ r' = rev r)) [square 0 9; square 3 6] [square 0 9; rev (square 3 6)] /\
  (forall h, In h [square 3 6] -> holds p h -> holds p (square 0 9)) /\ ForallOrdPairs (fun h h' => ~ (holds p h /\ holds p h')) [square 3 6].
Proof.
  cbv zeta. split; [|split; [intros h _ _; vm_compute; reflexivity|repeat constructor]].
  assert (G : forall a b, 0 <= a <= 9 -> 0 <= b <= 9 -> grid_ring 0 (ipt 4 5) (square a b)).
  { intros a b A B. split; [lia|]. split; [apply ipt_gpt; lia|]. split; [unfold square; repeat constructor; apply ipt_gpt; lia|].
    split; [|cbn; unfold i32_max; lia]. exists (ipt a a), [ipt b a; ipt b b; ipt a b], (ipt a a). split; reflexivity. }
  constructor; [split; [apply G; lia|now left]|]. constructor; [split; [apply G; lia|now right]|constructor].
Qed.
