(** C80: the text of a value identifies what is printed. *)
From Coq Require Import ZArith List Ascii String Bool Lia.
From Flocq Require Import Core IEEE754.BinarySingleNaN.
From Verif Require Import Base F64 Coordinate_model Envelope_model CoordSeq_model PrecisionModel_model Vector_model DD_model Text_model.
Import ListNotations.

(** What is assumed of the printing of doubles: different doubles have different
    texts, made of the characters of numerals, [inf] and [NaN]. *)
Definition numeral_char (c : ascii) : Prop := In c (list_ascii_of_string "0123456789.-+eEinfNa").
Definition readable (show : f64 -> text) : Prop :=
  (forall x y, show x = show y -> x = y) /\ forall x, Forall numeral_char (show x).

Section Read.
Variable show : f64 -> text.
Hypothesis Hs : readable show.

Lemma cut u v c r s : Forall numeral_char u -> Forall numeral_char v -> ~ numeral_char c ->
  u ++ c :: r = v ++ c :: s -> u = v /\ r = s.
Proof.
  intros U V N. revert v V. induction U as [|x u X U IH]; intros v V E; destruct V as [|y v Y V]; cbn in E; injection E.
  - auto.
  - intros _ <-. contradiction.
  - intros _ ->. contradiction.
  - intros E' <-. destruct (IH v V E') as (-> & ->). auto.
Qed.
Lemma no_char c : existsb (Ascii.eqb c) (list_ascii_of_string "0123456789.-+eEinfNa") = false -> ~ numeral_char c.
Proof.
  intros H I. assert (T : existsb (Ascii.eqb c) (list_ascii_of_string "0123456789.-+eEinfNa") = true); [|congruence].
  apply existsb_exists. exists c. split; [exact I|apply Ascii.eqb_refl].
Qed.
Lemma show_cut x y c r s : ~ numeral_char c -> show x ++ c :: r = show y ++ c :: s -> x = y /\ r = s.
Proof.
  intros N E. destruct Hs as (I & A). destruct (cut _ _ c r s (A x) (A y) N E) as (E1 & E2). split; [now apply I|exact E2].
Qed.

Lemma coord_cut a b r s : coord_text show a ++ r = coord_text show b ++ s ->
  (cx a = cx b /\ cy a = cy b /\ cz a = cz b) /\ r = s.
Proof.
  unfold coord_text, lit. cbn [list_ascii_of_string]. rewrite <- ?app_assoc. cbn [app]. rewrite <- ?app_assoc. cbn [app]. intros E. injection E as E.
  apply show_cut in E as (E1 & E); [|now apply no_char]. injection E as E. rewrite <- ?app_assoc in E. cbn [app] in E.
  apply show_cut in E as (E2 & E); [|now apply no_char]. injection E as E. rewrite <- ?app_assoc in E. cbn [app] in E.
  apply show_cut in E as (E3 & E); [|now apply no_char]. auto.
Qed.
Lemma loop_app l : forall u, seq_text_loop show u l = u ++ seq_text_loop show [] l.
Proof.
  induction l as [|c l IH]; intros u; cbn [seq_text_loop]; [now rewrite app_nil_r|].
  rewrite IH, (IH (([] ++ lit ", ") ++ coord_text show c)). cbn [app]. now rewrite <- ?app_assoc.
Qed.
Lemma loop_cut l : forall m, seq_text_loop show [] l ++ lit ")" = seq_text_loop show [] m ++ lit ")" ->
  Forall2 (fun a b => cx a = cx b /\ cy a = cy b /\ cz a = cz b) l m.
Proof.
  induction l as [|a l IH]; intros [|b m] E; cbn [seq_text_loop] in E; try rewrite loop_app in E.
  - constructor.
  - exfalso. rewrite <- ?app_assoc in E. discriminate E.
  - exfalso. rewrite <- ?app_assoc in E. discriminate E.
  - rewrite (loop_app m) in E. rewrite <- ?app_assoc in E. cbn [app] in E. apply app_inv_head in E. apply coord_cut in E as (C & E). constructor; [exact C|]. now apply IH.
Qed.
End Read.

(** Two coordinates print alike exactly when x, y and z are the same doubles. *)
Theorem C80_coordinate_text : forall show a b, readable show ->
  (coord_text show a = coord_text show b <-> cx a = cx b /\ cy a = cy b /\ cz a = cz b).
Proof.
  intros show a b H. split.
  - intros E. apply (coord_cut show H a b [] []). now rewrite E.
  - intros (E1 & E2 & E3). unfold coord_text. now rewrite E1, E2, E3.
Qed.
(** Two envelopes print alike exactly when they are the same. *)
Theorem C80_envelope_text : forall show a b, readable show -> (env_text show a = env_text show b <-> a = b).
Proof.
  intros show [a1 a2 a3 a4] [b1 b2 b3 b4] H. split; [|congruence].
  unfold env_text, lit. cbn [list_ascii_of_string minx maxx miny maxy app]. intros E. injection E as E.
  apply (show_cut show H) in E as (-> & E); [|now apply no_char]. injection E as E.
  apply (show_cut show H) in E as (-> & E); [|now apply no_char]. injection E as E.
  apply (show_cut show H) in E as (-> & E); [|now apply no_char]. injection E as E.
  apply (show_cut show H) in E as (-> & E); [|now apply no_char]. reflexivity.
Qed.
(** Vectors and double-doubles likewise. *)
Theorem C80_vector_text : forall show, readable show ->
  (forall a b, v2_text show a = v2_text show b <-> a = b) /\ (forall a b, v3_text show a = v3_text show b <-> a = b) /\
  (forall a b, dd_text show a = dd_text show b <-> a = b).
Proof.
  intros show H. split; [|split].
  - intros [a1 a2] [b1 b2]. split; [|congruence]. unfold v2_text, lit. cbn [list_ascii_of_string vx vy app]. intros E. injection E as E.
    apply (show_cut show H) in E as (-> & E); [|now apply no_char]. injection E as E.
    apply (show_cut show H) in E as (-> & E); [|now apply no_char]. reflexivity.
  - intros [a1 a2 a3] [b1 b2 b3]. split; [|congruence]. unfold v3_text, lit. cbn [list_ascii_of_string wx wy wz app]. intros E. injection E as E.
    apply (show_cut show H) in E as (-> & E); [|now apply no_char]. injection E as E.
    apply (show_cut show H) in E as (-> & E); [|now apply no_char]. injection E as E.
    apply (show_cut show H) in E as (-> & E); [|now apply no_char]. reflexivity.
  - intros [a1 a2] [b1 b2]. split; [|congruence]. unfold dd_text, lit. cbn [list_ascii_of_string hi lo app]. intros E. injection E as E.
    apply (show_cut show H) in E as (-> & E); [|now apply no_char]. injection E as E.
    apply (show_cut show H) in E as (-> & E); [|now apply no_char]. reflexivity.
Qed.
(** Two sequences print alike exactly when they have as many coordinates and these
    print alike, whatever their dimension and measures. *)
Theorem C80_sequence_text : forall show s t, readable show ->
  (seq_text show s = seq_text show t <->
   map (fun c => (cx c, cy c, cz c)) (scoords s) = map (fun c => (cx c, cy c, cz c)) (scoords t)).
Proof.
  intros show s t H. unfold seq_text. split.
  - destruct (scoords s) as [|a l]; destruct (scoords t) as [|b m]; intros E.
    + reflexivity.
    + rewrite (loop_app show m) in E. rewrite <- ?app_assoc in E. discriminate E.
    + rewrite (loop_app show l) in E. rewrite <- ?app_assoc in E. discriminate E.
    + rewrite (loop_app show l), (loop_app show m) in E. rewrite <- ?app_assoc in E. apply app_inv_head in E.
      rewrite <- ?app_assoc in E. apply (coord_cut show H) in E as ((E1 & E2 & E3) & E). apply (loop_cut show H) in E. cbn [map].
      f_equal; [congruence|]. clear -E. induction E as [|x y l' m' (F1 & F2 & F3) E IH]; [reflexivity|]. cbn [map]. rewrite IH. congruence.
  - assert (K : forall l m u, map (fun c => (cx c, cy c, cz c)) l = map (fun c => (cx c, cy c, cz c)) m -> seq_text_loop show u l = seq_text_loop show u m).
    { induction l as [|a l IH]; intros [|b m] u E; cbn in E; try discriminate; [reflexivity|]. injection E as E1 E2 E3 E. cbn [seq_text_loop].
      unfold coord_text. rewrite E1, E2, E3. now apply IH. }
    destruct (scoords s) as [|a l]; destruct (scoords t) as [|b m]; cbn [map]; intros E; try discriminate; [reflexivity|].
    injection E as E1 E2 E3 E. unfold coord_text. rewrite E1, E2, E3. now rewrite (K l m _ E).
Qed.
(** The text of a sequence: the texts of its coordinates with commas between,
    in one pair of brackets. *)
Fixpoint joined (sep : text) (l : list text) : text :=
  match l with [] => [] | [t] => t | t :: r => t ++ sep ++ joined sep r end.
Theorem C80_sequence_shape : forall show s,
  seq_text show s = lit "(" ++ joined (lit ", ") (map (coord_text show) (scoords s)) ++ lit ")".
Proof.
  intros show s. unfold seq_text. destruct (scoords s) as [|c l]; [reflexivity|].
  assert (forall l u c, seq_text_loop show (u ++ coord_text show c) l = u ++ joined (lit ", ") (map (coord_text show) (c :: l))) as K.
  { clear. induction l as [|b l IH]; intros u c; [reflexivity|]. cbn [seq_text_loop].
    rewrite IH. change (map (coord_text show) (c :: b :: l)) with (coord_text show c :: map (coord_text show) (b :: l)).
    cbn [joined map]. rewrite <- !app_assoc. reflexivity. }
  rewrite K, <- app_assoc. reflexivity.
Qed.
(** Two precision models print alike exactly when they are of the same kind and, if
    fixed, of the same scale. *)
Theorem C80_precision_text : forall show a b, readable show ->
  (pm_text show a = pm_text show b <-> pm_type a = pm_type b /\ (pm_type a = Fixed -> pm_scale a = pm_scale b)).
Proof.
  intros show a b H. unfold pm_text. destruct (pm_type a), (pm_type b); unfold lit; cbn [list_ascii_of_string app];
    (split; [intros E; try discriminate E|intros (E1 & E2); try discriminate E1]); try (split; [reflexivity|discriminate]); try reflexivity.
  - injection E as E. apply (show_cut show H) in E as (E & _); [|now apply no_char]. auto.
  - now rewrite (E2 eq_refl).
Qed.

(** A printing in binary that meets the assumption. *)
Fixpoint bits (p : positive) : text :=
  match p with xH => lit "1" | xO q => lit "0" ++ bits q | xI q => lit "1" ++ bits q end.
Definition zbits (z : Z) : text := match z with Z0 => lit "0." | Zpos p => bits p ++ lit "." | Zneg p => lit "-" ++ bits p ++ lit "." end.
Definition show_bits (x : f64) : text :=
  match x with
  | B754_zero s => if s then lit "-0" else lit "0"
  | B754_infinity s => if s then lit "-inf" else lit "inf"
  | B754_nan => lit "NaN"
  | B754_finite s m e _ => lit "e" ++ zbits (if s then Zneg m else Zpos m) ++ zbits e
  end.
Lemma lit_numeral s : forallb (fun c => existsb (Ascii.eqb c) (list_ascii_of_string "0123456789.-+eEinfNa")) (list_ascii_of_string s) = true -> Forall numeral_char (lit s).
Proof.
  intros H. apply Forall_forall. intros c C. rewrite forallb_forall in H. apply H in C. apply existsb_exists in C as (d & D & E).
  apply Ascii.eqb_eq in E. now subst d.
Qed.
Lemma bits_numeral p : Forall numeral_char (bits p).
Proof. induction p; cbn [bits]; try (apply Forall_app; split); try assumption; now apply lit_numeral. Qed.
Lemma bits_dot p : forall q r s, bits p ++ "."%char :: r = bits q ++ "."%char :: s -> p = q /\ r = s.
Proof.
  assert (D : forall q s r, "."%char :: r = bits q ++ "."%char :: s -> False) by (intros [q|q|] s r E; discriminate E).
  induction p as [p IH|p IH|]; intros [q|q|] r s E; cbn in E; try discriminate E; injection E as E.
  - apply IH in E as (-> & ->). auto.
  - exfalso. destruct p; discriminate E.
  - apply IH in E as (-> & ->). auto.
  - exfalso. symmetry in E. destruct q; discriminate E.
  - auto.
Qed.
Lemma bits_head p r : exists c t, bits p ++ r = c :: t /\ (c = "0" \/ c = "1")%char.
Proof. destruct p; cbn; eauto. Qed.
Lemma zbits_cut y z r s : zbits y ++ r = zbits z ++ s -> y = z /\ r = s.
Proof.
  assert (Z : forall p r s, "0"%char :: "."%char :: r = bits p ++ "."%char :: s -> False).
  { intros [p|p|] r' s' E; try discriminate E. cbn in E. injection E as E. destruct p; discriminate E. }
  destruct y, z; unfold zbits, lit; cbn [list_ascii_of_string app]; rewrite <- ?app_assoc; cbn [app]; intros E; try discriminate E.
  - injection E as ->. auto.
  - exfalso. eapply Z. exact E.
  - exfalso. symmetry in E. eapply Z. exact E.
  - apply bits_dot in E as (-> & ->). auto.
  - exfalso. destruct p; discriminate E.
  - exfalso. destruct p0; discriminate E.
  - injection E as E. apply bits_dot in E as (-> & ->). auto.
Qed.
Example C80_example : readable show_bits /\ coord_text show_bits (new_xy f1 f2) <> coord_text show_bits (new_xy f2 f1).
Proof.
  assert (R : readable show_bits).
  { split.
    - intros x y E. apply (B2SF_inj 53 1024). destruct x as [[]|[]| |s m e B], y as [[]|[]| |s' m' e' B']; try discriminate E; try reflexivity.
      cbn [show_bits lit list_ascii_of_string app] in E. injection E as E. apply zbits_cut in E as (E1 & E).
      rewrite <- (app_nil_r (zbits e)), <- (app_nil_r (zbits e')) in E. apply zbits_cut in E as (-> & _).
      destruct s, s'; try discriminate E1; injection E1 as ->; reflexivity.
    - intros x. assert (K : forall z, Forall numeral_char (zbits z)).
      { intros [|p|p]; cbn [zbits]; repeat (apply Forall_app; split); try apply bits_numeral; now apply lit_numeral. }
      destruct x as [[]|[]| |s m e B]; cbn [show_bits]; try (now apply lit_numeral).
      repeat (apply Forall_app; split); try apply K. now apply lit_numeral. }
  split; [exact R|]. intros E. apply C80_coordinate_text in E as (E & _); [|exact R]. discriminate E.
Qed.
