(** C89: element types of arithmetic, comparisons and logical and. *)
From Verif Require Import TypeFloat NdIndexFacts NdMemFacts NdProofs NdProofs2.
From Verif Require Import DriftFloatProofs TypeFacts TypeModel.
From Coq Require Import ZifyBool Lia Reals Lra.
From Flocq Require Import Core BinarySingleNaN.
Local Open Scope Z_scope.

(** ** What is expected *)
(** The element types that arrays may have. *)
Definition dtype_of (t : ty) : dtype := match t with F32 => DType 2 32 | I32 => DType 0 32 | I64 => DType 0 64 | U8 => DType 1 8 | U32 => DType 1 32 end.
(** An array of element type [t]. *)
Definition array_of (t : ty) (a : tarr) : Prop := array_ty t /\ x_dt a = dtype_of t /\ Forall (of_type t) (x_mem a).
(** One element of [a o b], [a] of type [ta] and [b] of type [tb].
    Both integers: the exact result modulo the range of [ta], if it is defined: no division by zero and, unless one operand is uint32, no result outside int32.
    One a float: the operands as binary32 numbers, the rounded result and, where [ta] is an integer type, its integral part if that has the type. *)
Definition expected (ta tb : ty) (o : aop) (x y : elem) (r : outcome elem) : Prop :=
  match x, y with
  | NZ i, NZ j => let u := unsigned_pair ta tb in
      (int_defined u o i j -> exists z, r = Ok (NZ z) /\ stands_for ta (int_exact u o i j) z) /\ (~ int_defined u o i j -> r = UB)
  | _, _ =>
      (finite_elem x -> finite_elem y -> (o = OpDiv -> nearest y <> 0%R) -> float_result ta (RN (real_op o (nearest x) (nearest y))) r) /\
      (~ not_nan x \/ ~ not_nan y \/ (o = OpDiv /\ finite_elem y /\ nearest y = 0%R) ->
         if match ta with F32 => true | _ => false end
         then exists v, r = Ok (NF v) /\ is_finite v = false /\ (~ not_nan x \/ ~ not_nan y -> is_nan v = true)
         else r = UB)
  end.
(** The outcome [r] of an operation whose elements at the indices of shape [s] come out as [rs]. *)
Definition elementwise (t : ty) (s : list Z) (rs : list Z -> outcome elem) (r : outcome tarr) : Prop :=
  ((forall idx, in_range s idx -> exists v, rs idx = Ok v) ->
     exists c, r = Ok c /\ array_of t c /\ x_lay c = dense s /\ zlen (x_mem c) = zprod s /\
               forall idx, in_range s idx -> exists v, rs idx = Ok v /\ elt (x_mem c) (dense s) idx = Some v) /\
  ((exists idx, in_range s idx /\ rs idx = UB) -> r = UB).

(** ** Elements *)
Lemma arith_expected ta tb o x y : array_ty ta -> array_ty tb -> of_type ta x -> of_type tb y -> expected ta tb o x y (arith ta ta tb o x y).
Proof.
  intros Ha Hb Tx Ty.
  assert (F : forall v, array_ty v -> v = F32 \/ small_int v) by auto.
  destruct x as [x|x], y as [y|y]; cbn [expected].
  1-3: assert (D : ta = F32 \/ tb = F32) by (destruct ta, tb; cbn in Tx, Ty; tauto); split; [intros; now apply arith_float|intros; now apply arith_nonfinite].
  assert (Sa : small_int ta) by (destruct Ha as [-> |]; [destruct Tx|assumption]). assert (Sb : small_int tb) by (destruct Hb as [-> |]; [destruct Ty|assumption]).
  now apply arith_int.
Qed.
Lemma cast_typed t v w : t <> I64 -> cast t v = Ok w -> of_type t w.
Proof.
  intros Ht H. destruct t; try congruence; destruct v as [x|z]; cbn [cast] in H.
  1-2: inversion H; exact I.
  all: try (injection H as <-; cbn [of_type]; apply (wrap_stands _ z); discriminate).
  all: destruct (trunc_Z x) as [z|]; [|discriminate]; match type of H with (if fits ?t z then _ else _) = _ => destruct (fits t z) eqn:E; [|discriminate] end; injection H as <-; cbn [of_type]; apply fits_spec in E; [exact E|discriminate].
Qed.
Lemma obind_ok {A B} (m : outcome A) (f : A -> outcome B) v : obind m f = Ok v -> exists x, m = Ok x /\ f x = Ok v.
Proof. destruct m; cbn; intros H; try discriminate. eauto. Qed.
Lemma array_not t : array_ty t -> t <> I64. Proof. intros [-> |[-> |[-> | ->]]]; discriminate. Qed.
Lemma arith_typed ta tb o x y v : array_ty ta -> arith ta ta tb o x y = Ok v -> of_type ta v.
Proof.
  intros Ha H. unfold arith in H. apply obind_ok in H as (a & _ & H). apply obind_ok in H as (b & _ & H). apply obind_ok in H as (r & _ & H).
  eapply cast_typed; [|exact H]. now apply array_not.
Qed.
Lemma cast_nothrow t v e : cast t v <> Throw e.
Proof. destruct t, v as [x|z]; cbn [cast]; try discriminate; destruct (trunc_Z x); try discriminate; destruct (fits _ _); discriminate. Qed.
Lemma obind_nothrow {A B} (m : outcome A) (f : A -> outcome B) e : (forall e, m <> Throw e) -> (forall x, f x <> Throw e) -> obind m f <> Throw e.
Proof. intros H1 H2. destruct m; cbn; [apply H2|intros E; inversion E; subst; now apply (H1 e)|discriminate]. Qed.
Lemma arith_nothrow out ta tb o x y e : arith out ta tb o x y <> Throw e.
Proof.
  unfold arith. apply obind_nothrow; [intros; apply cast_nothrow|]. intros a. apply obind_nothrow; [intros; apply cast_nothrow|]. intros b.
  apply obind_nothrow; [|intros; apply cast_nothrow]. intros e'. unfold in_type. destruct a, b; try discriminate.
  destruct (_ && _); [discriminate|]. destruct (signed _); [destruct (fits _ _)|]; discriminate.
Qed.
Lemma elem_ty_of t : array_ty t -> elem_ty false (dtype_of t) = Ok t.
Proof. intros [-> |[-> |[-> | ->]]]; reflexivity. Qed.

(** ** Arrays *)
Lemma collect_ok m : (forall v, In v m -> exists w, v = Ok w) -> exists l, collect m = Ok l /\ m = map Ok l.
Proof.
  induction m as [|v m IH]; intros H; [now exists []|]. destruct (H v (or_introl eq_refl)) as (w & ->). destruct IH as (l & E & ->); [intros u Hu; apply H; now right|].
  exists (w :: l). cbn [collect obind]. rewrite E. split; reflexivity.
Qed.
Lemma collect_ub m : (forall v e, In v m -> v <> Throw e) -> In UB m -> collect m = UB.
Proof.
  induction m as [|v m IH]; intros H Hi; [destruct Hi|]. cbn [collect]. destruct v as [w|e|]; [|exfalso; now apply (H (Throw e) e (or_introl eq_refl))|reflexivity].
  destruct Hi as [Hi|Hi]; [discriminate|]. cbn [obind]. rewrite IH; [reflexivity| |exact Hi]. intros v e Hv. apply H. now right.
Qed.
Lemma znth_map_Ok l i w : znth (map Ok l : list (outcome elem)) i = Some (Ok w) -> znth l i = Some w.
Proof. unfold znth. destruct (i <? 0); [discriminate|]. rewrite nth_error_map. destruct (nth_error l (Z.to_nat i)); cbn; congruence. Qed.
Lemma in_znth {A} (l : list A) v : In v l -> exists i, 0 <= i < zlen l /\ znth l i = Some v.
Proof.
  intros H. apply In_nth_error in H as (n & H). exists (Z.of_nat n). assert (n < length l)%nat by (apply nth_error_Some; congruence).
  split; [unfold zlen; lia|]. unfold znth. replace (Z.of_nat n <? 0) with false by lia. now rewrite Nat2Z.id.
Qed.
Lemma znth_in' {A} (l : list A) i v : znth l i = Some v -> In v l.
Proof. unfold znth. destruct (i <? 0); [discriminate|]. apply nth_error_In. Qed.
Lemma finish_elementwise t s (m : mem (outcome elem)) rs : array_ty t -> Forall (fun d => 0 <= d) s -> zlen m = zprod s ->
  (forall idx, in_range s idx -> elt m (dense s) idx = Some (rs idx) /\ (forall e, rs idx <> Throw e) /\ (forall v, rs idx = Ok v -> of_type t v)) ->
  elementwise t s rs (finish_op (dtype_of t) (Ok (dense s, m))).
Proof.
  intros Ht Hs Hl H. unfold finish_op. cbn [obind snd fst].
  assert (On : forall v, In v m -> exists idx, in_range s idx /\ v = rs idx).
  { intros v Hv. apply in_znth in Hv as (i & Hi & E). rewrite Hl in Hi. destruct (dense_onto s i Hs Hi) as (idx & R & C). exists idx. split; [exact R|].
    destruct (H idx R) as (G & _). unfold elt in G. rewrite C in G. congruence. }
  split.
  - intros Ok_. destruct (collect_ok m) as (l & E & El).
    { intros v Hv. destruct (On v Hv) as (idx & R & ->). now apply Ok_. }
    rewrite E. cbn [obind]. eexists. split; [reflexivity|]. cbn [x_dt x_lay x_mem].
    assert (At : forall idx, in_range s idx -> exists v, rs idx = Ok v /\ elt l (dense s) idx = Some v).
    { intros idx R. destruct (Ok_ idx R) as (v & Ev). exists v. split; [exact Ev|]. destruct (H idx R) as (G & _). rewrite Ev, El in G. now apply znth_map_Ok in G. }
    split; [|split; [reflexivity|split; [|exact At]]].
    + split; [exact Ht|]. split; [reflexivity|]. apply Forall_forall. intros v Hv. assert (Hv' : In (Ok v) m) by (rewrite El; now apply in_map).
      destruct (On _ Hv') as (idx & R & Ev). destruct (H idx R) as (_ & _ & G). apply G. now symmetry.
    + rewrite El in Hl. unfold zlen in *. now rewrite map_length in Hl.
  - intros (idx & R & E). rewrite collect_ub; [reflexivity| |].
    + intros v e Hv. destruct (On v Hv) as (idx' & R' & ->). destruct (H idx' R') as (_ & G & _). apply G.
    + destruct (H idx R) as (G & _). rewrite E in G. now apply znth_in' in G.
Qed.
Definition read_out (s : list Z) (m : mem (outcome elem)) (idx : list Z) : outcome elem := match elt m (dense s) idx with Some v => v | None => UB end.
Lemma elt_typed t m l idx v : Forall (of_type t) m -> elt m l idx = Some v -> of_type t v.
Proof. intros H E. eapply Forall_forall; [exact H|]. eapply znth_in'. exact E. Qed.

(** C89: [a + b] and [a / b], of the broadcast shape and of the type of [a].  Every element is as expected; the operation is undefined exactly if one of them is. *)
Theorem C89_add_divide : forall junk o ta tb a b s, (o = OpAdd \/ o = OpDiv) -> array_of ta a -> array_of tb b ->
  wf (x_lay a) -> wf (x_lay b) -> Forall (fun d => 0 < d) (l_shape (x_lay a)) -> Forall (fun d => 0 < d) (l_shape (x_lay b)) ->
  expand_shapes (l_shape (x_lay a)) (l_shape (x_lay b)) = Ok s -> s <> [] -> zprod s < 2 ^ 31 ->
  walkable (l_shape (x_lay a)) s -> walkable (l_shape (x_lay b)) s ->
  inside (x_lay a) (zlen (x_mem a)) -> inside (x_lay b) (zlen (x_mem b)) ->
  exists rs, elementwise ta s rs (array_arith junk o a b) /\
    forall idx, in_range s idx ->
      exists x y, elt (x_mem a) (x_lay a) (bidx (l_shape (x_lay a)) idx) = Some x /\ elt (x_mem b) (x_lay b) (bidx (l_shape (x_lay b)) idx) = Some y /\
                  expected ta tb o x y (rs idx).
Proof.
  intros junk o ta tb a b s Ho (Ha & Da & Ma) (Hb & Db & Mb) W1 W2 P1 P2 Es Sn Sz K1 K2 I1 I2.
  destruct (expand_op_correct (arith ta ta tb o) (junk' junk) _ _ _ _ s W1 W2 P1 P2 Es Sn Sz K1 K2 I1 I2) as (m & E & Lm & Em).
  exists (read_out s m). split.
  - assert (G : array_arith junk o a b = finish_op (dtype_of ta) (Ok (dense s, m))).
    { destruct Ho as [-> | ->]; cbn [array_arith]; unfold expand_arith; rewrite Es, Da, Db, !elem_ty_of by assumption; cbn [obind]; now rewrite E. }
    rewrite G. apply finish_elementwise; [exact Ha| |exact Lm|].
    { eapply Forall_impl; [|exact (expand_posl _ _ s P1 P2 Es)]. cbn. intros; lia. }
    intros idx R. destruct (Em idx R) as (x & y & _ & _ & Eo). unfold read_out. rewrite Eo. split; [reflexivity|]. split; [intros; apply arith_nothrow|].
    intros v Ev. eapply arith_typed; [exact Ha|exact Ev].
  - intros idx R. destruct (Em idx R) as (x & y & Ex & Ey & Eo). exists x, y. split; [exact Ex|]. split; [exact Ey|]. unfold read_out. rewrite Eo.
    apply arith_expected; [exact Ha|exact Hb|eapply elt_typed; [exact Ma|exact Ex]|eapply elt_typed; [exact Mb|exact Ey]].
Qed.
Print Assumptions C89_add_divide.

(** C89: [a - b] and [a * b], when [b] stretches to the shape of [a]. *)
Theorem C89_subtract_multiply : forall junk o ta tb a b lead tail, (o = OpSub \/ o = OpMul) -> array_of ta a -> array_of tb b ->
  wf (x_lay a) -> wf (x_lay b) -> Forall (fun d => 0 <= d) (l_shape (x_lay a)) -> zprod (l_shape (x_lay a)) < 2 ^ 31 -> l_shape (x_lay a) <> [] ->
  l_shape (x_lay a) = lead ++ tail -> stretches (l_shape (x_lay b)) tail -> walkable (l_shape (x_lay b)) (l_shape (x_lay a)) ->
  inside (x_lay a) (zlen (x_mem a)) -> inside (x_lay b) (zlen (x_mem b)) ->
  exists rs, elementwise ta (l_shape (x_lay a)) rs (array_arith junk o a b) /\
    forall idx, in_range (l_shape (x_lay a)) idx ->
      exists x y, elt (x_mem a) (x_lay a) idx = Some x /\ elt (x_mem b) (x_lay b) (bidx (l_shape (x_lay b)) idx) = Some y /\ expected ta tb o x y (rs idx).
Proof.
  intros junk o ta tb a b lead tail Ho (Ha & Da & Ma) (Hb & Db & Mb) W1 W2 P1 Sz Sn Es St K2 I1 I2.
  destruct (left_shape_op_correct (arith ta ta tb o) (junk' junk) _ _ _ _ lead tail W1 W2 (conj P1 Sz) Sn Es St K2 I1 I2) as (m & E & Lm & Em).
  exists (read_out (l_shape (x_lay a)) m). split.
  - assert (G : array_arith junk o a b = finish_op (dtype_of ta) (Ok (dense (l_shape (x_lay a)), m))).
    { destruct Ho as [-> | ->]; cbn [array_arith]; unfold left_arith; rewrite Da, Db, !elem_ty_of by assumption; cbn [obind]; now rewrite E. }
    rewrite G. apply finish_elementwise; [exact Ha|exact P1|exact Lm|].
    intros idx R. destruct (Em idx R) as (x & y & _ & _ & Eo). unfold read_out. rewrite Eo. split; [reflexivity|]. split; [intros; apply arith_nothrow|].
    intros v Ev. eapply arith_typed; [exact Ha|exact Ev].
  - intros idx R. destruct (Em idx R) as (x & y & Ex & Ey & Eo). exists x, y. split; [exact Ex|]. split; [exact Ey|]. unfold read_out. rewrite Eo.
    apply arith_expected; [exact Ha|exact Hb|eapply elt_typed; [exact Ma|exact Ex]|eapply elt_typed; [exact Mb|exact Ey]].
Qed.
Print Assumptions C89_subtract_multiply.

(** C89: an array with a scalar of any of the types. *)
Theorem C89_scalar : forall junk o ta tb a y, array_of ta a -> array_ty tb -> of_type tb y ->
  wf (x_lay a) -> Forall (fun d => 0 <= d) (l_shape (x_lay a)) -> zprod (l_shape (x_lay a)) < 2 ^ 31 -> inside (x_lay a) (zlen (x_mem a)) ->
  exists rs, elementwise ta (l_shape (x_lay a)) rs (scalar_arith junk o a tb y) /\
    forall idx, in_range (l_shape (x_lay a)) idx -> exists x, elt (x_mem a) (x_lay a) idx = Some x /\ expected ta tb o x y (rs idx).
Proof.
  intros junk o ta tb a y (Ha & Da & Ma) Hb Ty W1 P1 Sz I1.
  destruct (array_scalar_op_correct (arith ta ta tb o) (junk' junk) _ _ y W1 (conj P1 Sz) I1) as (m & E & Lm & Em).
  exists (read_out (l_shape (x_lay a)) m). split.
  - assert (G : scalar_arith junk o a tb y = finish_op (dtype_of ta) (Ok (dense (l_shape (x_lay a)), m))).
    { unfold scalar_arith. rewrite Da, !elem_ty_of by assumption. cbn [obind]. now rewrite E. }
    rewrite G. apply finish_elementwise; [exact Ha|exact P1|exact Lm|].
    intros idx R. destruct (Em idx R) as (x & _ & Eo). unfold read_out. rewrite Eo. split; [reflexivity|]. split; [intros; apply arith_nothrow|].
    intros v Ev. eapply arith_typed; [exact Ha|exact Ev].
  - intros idx R. destruct (Em idx R) as (x & Ex & Eo). exists x. split; [exact Ex|]. unfold read_out. rewrite Eo.
    apply arith_expected; [exact Ha|exact Hb|eapply elt_typed; [exact Ma|exact Ex]|exact Ty].
Qed.
Print Assumptions C89_scalar.

(** When the integer result has the type of the left operand, it is the exact one. *)
Theorem C89_integers_exact : forall ta tb o x y r, small_int ta -> small_int tb -> of_type ta (NZ x) -> of_type tb (NZ y) -> expected ta tb o (NZ x) (NZ y) r ->
  let z := match o with OpAdd => x + y | OpSub => x - y | OpMul => x * y | OpDiv => Z.quot x y end in
  (o = OpDiv -> y <> 0 /\ (unsigned_pair ta tb = true -> 0 <= x /\ 0 <= y)) ->
  (unsigned_pair ta tb = false -> - 2147483648 <= z <= 2147483647) -> least ta <= z <= greatest ta -> r = Ok (NZ z).
Proof.
  intros ta tb o x y r Sa Sb Tx Ty (H & _) z Hd Hz Hf. destruct (small_not _ Sa) as (Na & _).
  assert (E : int_exact (unsigned_pair ta tb) o x y = z).
  { unfold z, int_exact, read_as. destruct o; try reflexivity. destruct (unsigned_pair ta tb) eqn:Eu; [|reflexivity]. destruct (Hd eq_refl) as (_ & K). destruct (K eq_refl) as (K1 & K2).
    assert (x < 4294967296 /\ y < 4294967296) as (? & ?) by (destruct Sa as [-> |[-> | ->]], Sb as [-> |[-> | ->]]; cbn [of_type least greatest] in Tx, Ty; lia). now rewrite !Z.mod_small by lia. }
  rewrite E in H. destruct H as (w & -> & G).
  - destruct o; cbn [int_defined] in *; rewrite ?E; try (destruct (unsigned_pair ta tb); [now left|right; now apply Hz]).
    destruct (Hd eq_refl) as (K & _). split; [exact K|]. destruct (unsigned_pair ta tb); [now left|]. right. intros (-> & ->). specialize (Hz eq_refl). unfold z in Hz. cbn in Hz. lia.
  - do 2 f_equal. eapply stands_unique; [exact Na|exact G|]. now apply stands_self.
Qed.
Print Assumptions C89_integers_exact.

(** ** Comparisons *)
Definition compares (ta tb : ty) (r : relop) (x y : elem) (b : bool) : Prop :=
  match x, y with
  | NZ i, NZ j => let u := unsigned_pair ta tb in b = true <-> related r (IZR (read_as u i)) (IZR (read_as u j))
  | _, _ => b = true <-> not_nan x /\ not_nan y /\ related r (nearest x) (nearest y)
  end.
Lemma compare_compares ta tb r x y : array_ty ta -> array_ty tb -> of_type ta x -> of_type tb y ->
  exists b, compare ta tb r x y = Ok (flag b) /\ compares ta tb r x y b.
Proof.
  intros Ha Hb Tx Ty. destruct x as [x|x], y as [y|y]; cbn [compares].
  1-3: assert (D : ta = F32 \/ tb = F32) by (destruct ta, tb; cbn in Tx, Ty; tauto); now apply compare_float.
  assert (Sa : small_int ta) by (destruct Ha as [-> |]; [destruct Tx|assumption]). assert (Sb : small_int tb) by (destruct Hb as [-> |]; [destruct Ty|assumption]).
  now apply compare_int.
Qed.
Lemma flag_typed b : of_type U8 (flag b). Proof. destruct b; cbn; lia. Qed.
Lemma U8_array : array_ty U8. Proof. right. right. now left. Qed.

(** C89: comparisons of arrays; the result is a uint8 array of zeros and ones. *)
Theorem C89_compare : forall junk r ta tb a b lead tail, array_of ta a -> array_of tb b ->
  wf (x_lay a) -> wf (x_lay b) -> Forall (fun d => 0 <= d) (l_shape (x_lay a)) -> zprod (l_shape (x_lay a)) < 2 ^ 31 -> l_shape (x_lay a) <> [] ->
  l_shape (x_lay a) = lead ++ tail -> stretches (l_shape (x_lay b)) tail -> walkable (l_shape (x_lay b)) (l_shape (x_lay a)) ->
  inside (x_lay a) (zlen (x_mem a)) -> inside (x_lay b) (zlen (x_mem b)) ->
  exists c, array_flags junk (fun ta tb => compare ta tb r) a b = Ok c /\ array_of U8 c /\ x_lay c = dense (l_shape (x_lay a)) /\
    forall idx, in_range (l_shape (x_lay a)) idx ->
      exists x y t, elt (x_mem a) (x_lay a) idx = Some x /\ elt (x_mem b) (x_lay b) (bidx (l_shape (x_lay b)) idx) = Some y /\
                    elt (x_mem c) (x_lay c) idx = Some (flag t) /\ compares ta tb r x y t.
Proof.
  intros junk r ta tb a b lead tail (Ha & Da & Ma) (Hb & Db & Mb) W1 W2 P1 Sz Sn Es St K2 I1 I2.
  destruct (left_shape_op_correct (compare ta tb r) (junk' junk) _ _ _ _ lead tail W1 W2 (conj P1 Sz) Sn Es St K2 I1 I2) as (m & E & Lm & Em).
  assert (G : array_flags junk (fun ta tb => compare ta tb r) a b = finish_op (dtype_of U8) (Ok (dense (l_shape (x_lay a)), m))).
  { unfold array_flags. rewrite Da, Db, !elem_ty_of by assumption. cbn [obind]. now rewrite E. }
  assert (Fl : forall idx, in_range (l_shape (x_lay a)) idx -> exists x y t, elt (x_mem a) (x_lay a) idx = Some x /\ elt (x_mem b) (x_lay b) (bidx (l_shape (x_lay b)) idx) = Some y /\
     elt m (dense (l_shape (x_lay a))) idx = Some (Ok (flag t)) /\ compares ta tb r x y t).
  { intros idx R. destruct (Em idx R) as (x & y & Ex & Ey & Eo). destruct (compare_compares ta tb r x y Ha Hb) as (t & Et & Ct); [eapply elt_typed; [exact Ma|exact Ex]|eapply elt_typed; [exact Mb|exact Ey]|].
    exists x, y, t. rewrite <- Et. repeat (split; [assumption|]). exact Ct. }
  destruct (finish_elementwise U8 (l_shape (x_lay a)) m (read_out (l_shape (x_lay a)) m) U8_array P1 Lm) as (Good & _).
  { intros idx R. destruct (Fl idx R) as (x & y & t & _ & _ & Et & _). unfold read_out. rewrite Et. split; [reflexivity|]. split; [discriminate|]. intros v Ev. injection Ev as <-. apply flag_typed. }
  destruct Good as (c & Ec & Tc & Lc & _ & Rc).
  { intros idx R. destruct (Fl idx R) as (x & y & t & _ & _ & Et & _). unfold read_out. rewrite Et. eauto. }
  exists c. rewrite G. split; [exact Ec|]. split; [exact Tc|]. split; [exact Lc|]. intros idx R. destruct (Fl idx R) as (x & y & t & Ex & Ey & Et & Ct).
  exists x, y, t. split; [exact Ex|]. split; [exact Ey|]. split; [|exact Ct]. destruct (Rc idx R) as (v & Ev & Eo). unfold read_out in Ev. rewrite Et in Ev. injection Ev as <-. now rewrite Lc.
Qed.
Print Assumptions C89_compare.
(** Comparisons with a scalar. *)
Theorem C89_compare_scalar : forall junk r ta tb a y, array_of ta a -> array_ty tb -> of_type tb y ->
  wf (x_lay a) -> Forall (fun d => 0 <= d) (l_shape (x_lay a)) -> zprod (l_shape (x_lay a)) < 2 ^ 31 -> inside (x_lay a) (zlen (x_mem a)) ->
  exists c, scalar_flags junk (fun ta tb => compare ta tb r) a tb y = Ok c /\ array_of U8 c /\ x_lay c = dense (l_shape (x_lay a)) /\
    forall idx, in_range (l_shape (x_lay a)) idx ->
      exists x t, elt (x_mem a) (x_lay a) idx = Some x /\ elt (x_mem c) (x_lay c) idx = Some (flag t) /\ compares ta tb r x y t.
Proof.
  intros junk r ta tb a y (Ha & Da & Ma) Hb Ty W1 P1 Sz I1.
  destruct (array_scalar_op_correct (compare ta tb r) (junk' junk) _ _ y W1 (conj P1 Sz) I1) as (m & E & Lm & Em).
  assert (G : scalar_flags junk (fun ta tb => compare ta tb r) a tb y = finish_op (dtype_of U8) (Ok (dense (l_shape (x_lay a)), m))).
  { unfold scalar_flags. rewrite Da, !elem_ty_of by assumption. cbn [obind]. now rewrite E. }
  assert (Fl : forall idx, in_range (l_shape (x_lay a)) idx -> exists x t, elt (x_mem a) (x_lay a) idx = Some x /\
     elt m (dense (l_shape (x_lay a))) idx = Some (Ok (flag t)) /\ compares ta tb r x y t).
  { intros idx R. destruct (Em idx R) as (x & Ex & Eo). destruct (compare_compares ta tb r x y Ha Hb) as (t & Et & Ct); [eapply elt_typed; [exact Ma|exact Ex]|exact Ty|].
    exists x, t. rewrite <- Et. repeat (split; [assumption|]). exact Ct. }
  destruct (finish_elementwise U8 (l_shape (x_lay a)) m (read_out (l_shape (x_lay a)) m) U8_array P1 Lm) as (Good & _).
  { intros idx R. destruct (Fl idx R) as (x & t & _ & Et & _). unfold read_out. rewrite Et. split; [reflexivity|]. split; [discriminate|]. intros v Ev. injection Ev as <-. apply flag_typed. }
  destruct Good as (c & Ec & Tc & Lc & _ & Rc).
  { intros idx R. destruct (Fl idx R) as (x & t & _ & Et & _). unfold read_out. rewrite Et. eauto. }
  exists c. rewrite G. split; [exact Ec|]. split; [exact Tc|]. split; [exact Lc|]. intros idx R. destruct (Fl idx R) as (x & t & Ex & Et & Ct).
  exists x, t. split; [exact Ex|]. split; [|exact Ct]. destruct (Rc idx R) as (v & Ev & Eo). unfold read_out in Ev. rewrite Et in Ev. injection Ev as <-. now rewrite Lc.
Qed.
Print Assumptions C89_compare_scalar.
(** What the flags say about the exact numbers: integers of which none is negative beside a uint32, and numbers of at most 24 bits beside floats, compare exactly.
    In general a strict comparison that holds is right, and a non-strict one or an equality that is right holds. *)
Theorem C89_compare_exact : forall ta tb r x y b, array_ty ta -> array_ty tb -> of_type ta x -> of_type tb y -> compares ta tb r x y b ->
  (match x, y with
   | NZ i, NZ j => unsigned_pair ta tb = true -> 0 <= i /\ 0 <= j
   | NZ i, _ => Z.abs i <= 2 ^ 24
   | _, NZ j => Z.abs j <= 2 ^ 24
   | _, _ => True
   end -> b = true <-> not_nan x /\ not_nan y /\ related r (exactly x) (exactly y)) /\
  ((ta = F32 \/ tb = F32) -> not_nan x -> not_nan y ->
     if strict r then b = true -> related r (exactly x) (exactly y) else related r (exactly x) (exactly y) -> b = true).
Proof.
  intros ta tb r x y b Ha Hb Tx Ty H. split.
  - intros Hs. destruct x as [x|x], y as [y|y]; cbn [compares nearest exactly not_nan] in *.
    + exact H.
    + rewrite H. fold (nearest (NZ y)). now rewrite nearest_small.
    + rewrite H. fold (nearest (NZ x)). now rewrite nearest_small.
    + rewrite H. unfold read_as. destruct (unsigned_pair ta tb); [|tauto]. destruct (Hs eq_refl) as (K1 & K2).
      assert (x < 4294967296 /\ y < 4294967296) as (? & ?) by (destruct Ha as [-> |[-> |[-> | ->]]], Hb as [-> |[-> |[-> | ->]]]; cbn [of_type least greatest] in Tx, Ty; lia). rewrite !Z.mod_small by lia. tauto.
  - intros D Nx Ny. assert (H' : b = true <-> not_nan x /\ not_nan y /\ related r (nearest x) (nearest y)).
    { destruct x as [x|x], y as [y|y]; cbn [compares] in H; try exact H. exfalso. destruct ta, tb; cbn in Tx, Ty; destruct D; (discriminate || contradiction). }
    pose proof (related_nearest r x y) as G. destruct (strict r).
    + intros E. apply G. now apply H'.
    + intros E. apply H'. auto.
Qed.
Print Assumptions C89_compare_exact.

(** ** Logical and *)
(** C89: logical and of integer arrays keeps the low eight bits of the bitwise and: the logical and of flags, but not of other numbers. *)
Theorem C89_logical_and : forall junk ta tb a b lead tail, array_of ta a -> array_of tb b -> small_int ta -> small_int tb ->
  wf (x_lay a) -> wf (x_lay b) -> Forall (fun d => 0 <= d) (l_shape (x_lay a)) -> zprod (l_shape (x_lay a)) < 2 ^ 31 -> l_shape (x_lay a) <> [] ->
  l_shape (x_lay a) = lead ++ tail -> stretches (l_shape (x_lay b)) tail -> walkable (l_shape (x_lay b)) (l_shape (x_lay a)) ->
  inside (x_lay a) (zlen (x_mem a)) -> inside (x_lay b) (zlen (x_mem b)) ->
  exists c, array_flags junk logical_and a b = Ok c /\ array_of U8 c /\ x_lay c = dense (l_shape (x_lay a)) /\
    forall idx, in_range (l_shape (x_lay a)) idx ->
      exists x y z, elt (x_mem a) (x_lay a) idx = Some (NZ x) /\ elt (x_mem b) (x_lay b) (bidx (l_shape (x_lay b)) idx) = Some (NZ y) /\
        elt (x_mem c) (x_lay c) idx = Some (NZ z) /\ (forall n, 0 <= n -> Z.testbit z n = (n <? 8) && Z.testbit x n && Z.testbit y n) /\
        (0 <= x <= 1 -> 0 <= y <= 1 -> z = if (x =? 1) && (y =? 1) then 1 else 0).
Proof.
  intros junk ta tb a b lead tail (Ha & Da & Ma) (Hb & Db & Mb) Sa Sb W1 W2 P1 Sz Sn Es St K2 I1 I2.
  destruct (left_shape_op_correct (logical_and ta tb) (junk' junk) _ _ _ _ lead tail W1 W2 (conj P1 Sz) Sn Es St K2 I1 I2) as (m & E & Lm & Em).
  assert (G : array_flags junk logical_and a b = finish_op (dtype_of U8) (Ok (dense (l_shape (x_lay a)), m))).
  { unfold array_flags. rewrite Da, Db, !elem_ty_of by assumption. cbn [obind]. now rewrite E. }
  assert (Fl : forall idx, in_range (l_shape (x_lay a)) idx -> exists x y, elt (x_mem a) (x_lay a) idx = Some (NZ x) /\ elt (x_mem b) (x_lay b) (bidx (l_shape (x_lay b)) idx) = Some (NZ y) /\
     elt m (dense (l_shape (x_lay a))) idx = Some (Ok (NZ (Z.land x y mod 256)))).
  { intros idx R. destruct (Em idx R) as (x & y & Ex & Ey & Eo). pose proof (elt_typed ta _ _ _ _ Ma Ex) as Tx. pose proof (elt_typed tb _ _ _ _ Mb Ey) as Ty.
    destruct (small_not _ Sa) as (Na & _). destruct (small_not _ Sb) as (Nb & _).
    destruct x as [x|x]; [exfalso; destruct ta; try congruence; destruct Tx|]. destruct y as [y|y]; [exfalso; destruct tb; try congruence; destruct Ty|].
    exists x, y. rewrite logical_and_int in Eo by assumption. auto. }
  assert (T8 : forall z, of_type U8 (NZ (z mod 256))) by (intros z; cbn; lia).
  destruct (finish_elementwise U8 (l_shape (x_lay a)) m (read_out (l_shape (x_lay a)) m) U8_array P1 Lm) as (Good & _).
  { intros idx R. destruct (Fl idx R) as (x & y & _ & _ & Et). unfold read_out. rewrite Et. split; [reflexivity|]. split; [discriminate|]. intros v Ev. injection Ev as <-. apply T8. }
  destruct Good as (c & Ec & Tc & Lc & _ & Rc).
  { intros idx R. destruct (Fl idx R) as (x & y & _ & _ & Et). unfold read_out. rewrite Et. eauto. }
  exists c. rewrite G. split; [exact Ec|]. split; [exact Tc|]. split; [exact Lc|]. intros idx R. destruct (Fl idx R) as (x & y & Ex & Ey & Et).
  exists x, y, (Z.land x y mod 256). split; [exact Ex|]. split; [exact Ey|]. split.
  { destruct (Rc idx R) as (v & Ev & Eo). unfold read_out in Ev. rewrite Et in Ev. injection Ev as <-. now rewrite Lc. }
  split.
  - intros n Hn. change 256 with (2 ^ 8). destruct (Z.ltb_spec n 8); [rewrite Z.mod_pow2_bits_low, Z.land_spec by lia; reflexivity|rewrite Z.mod_pow2_bits_high by lia; reflexivity].
  - intros Rx Ry. assert ((x = 0 \/ x = 1) /\ (y = 0 \/ y = 1)) as ([-> | ->] & [-> | ->]) by lia; reflexivity.
Qed.
Print Assumptions C89_logical_and.
(** Beside a float array it throws, unless there is no element. *)
Theorem C89_logical_and_float : forall junk ta tb a b lead tail, array_of ta a -> array_of tb b -> ta = F32 \/ tb = F32 ->
  wf (x_lay a) -> wf (x_lay b) -> Forall (fun d => 0 < d) (l_shape (x_lay a)) -> zprod (l_shape (x_lay a)) < 2 ^ 31 -> l_shape (x_lay a) <> [] ->
  l_shape (x_lay a) = lead ++ tail -> stretches (l_shape (x_lay b)) tail -> walkable (l_shape (x_lay b)) (l_shape (x_lay a)) ->
  inside (x_lay a) (zlen (x_mem a)) -> inside (x_lay b) (zlen (x_mem b)) ->
  array_flags junk logical_and a b = Throw RuntimeError.
Proof.
  intros junk ta tb a b lead tail (Ha & Da & Ma) (Hb & Db & Mb) D W1 W2 P1 Sz Sn Es St K2 I1 I2.
  assert (P1' : Forall (fun d => 0 <= d) (l_shape (x_lay a))) by (eapply Forall_impl; [|exact P1]; cbn; intros; lia).
  destruct (left_shape_op_correct (logical_and ta tb) (junk' junk) _ _ _ _ lead tail W1 W2 (conj P1' Sz) Sn Es St K2 I1 I2) as (m & E & Lm & Em).
  unfold array_flags. rewrite Da, Db, !elem_ty_of by assumption. cbn [obind]. rewrite E. unfold finish_op. cbn [obind snd fst].
  assert (T : forall x y, logical_and ta tb x y = Throw RuntimeError) by (intros x y; destruct D as [-> | ->]; [|destruct ta]; reflexivity).
  assert (Z0 : 0 < zprod (l_shape (x_lay a))) by (now apply zprod_pos).
  assert (H0 : znth m 0 = Some (Throw RuntimeError)).
  { destruct (dense_onto (l_shape (x_lay a)) 0 P1') as (idx & R & C); [lia|]. destruct (Em idx R) as (x & y & _ & _ & Eo). unfold elt in Eo. now rewrite C, T in Eo. }
  destruct m as [|v m]; [discriminate|]. cbn in H0. injection H0 as ->. reflexivity.
Qed.
Print Assumptions C89_logical_and_float.

(** ** Other types *)
(** C89: arrays of any other element type (double, int64, uint16, ...) are refused. *)
Definition usable (d : dtype) : Prop := exists t, array_ty t /\ d = dtype_of t.
Lemma elem_ty_other d : ~ usable d -> elem_ty false d = Throw RuntimeError.
Proof.
  intros H. destruct (elem_ty false d) as [t|e|] eqn:E.
  - exfalso. apply H. destruct d as [c b]. unfold elem_ty in E. cbn [d_code d_bits] in E.
    destruct (c =? 2) eqn:E2; [destruct (b =? 32) eqn:B; [|discriminate]; exists F32; split; [now left|unfold dtype_of; f_equal; lia]|].
    destruct (c =? 0) eqn:E0; [destruct (b =? 32) eqn:B; [|discriminate]; exists I32; split; [right; now left|unfold dtype_of; f_equal; lia]|].
    destruct (c =? 1) eqn:E1; [|discriminate]. destruct (b =? 8) eqn:B; [exists U8; split; [right; right; now left|unfold dtype_of; f_equal; lia]|].
    destruct (b =? 32) eqn:B'; [|discriminate]. exists U32. split; [right; right; now right|unfold dtype_of; f_equal; lia].
  - destruct d as [c b]. unfold elem_ty in E. cbn [d_code d_bits andb] in E. destruct (c =? 2), (c =? 0), (c =? 1), (b =? 32), (b =? 8); congruence.
  - destruct d as [c b]. unfold elem_ty in E. cbn [d_code d_bits andb] in E. destruct (c =? 2), (c =? 0), (c =? 1), (b =? 32), (b =? 8); discriminate.
Qed.
Lemma elem_ty_cases d : (exists t, elem_ty false d = Ok t) \/ elem_ty false d = Throw RuntimeError.
Proof. destruct d as [c b]. unfold elem_ty. cbn [d_code d_bits andb]. destruct (c =? 2), (c =? 0), (c =? 1), (b =? 32), (b =? 8); eauto. Qed.
Theorem C89_other_types : forall junk o f a b, ~ usable (x_dt a) \/ ~ usable (x_dt b) ->
  ((o = OpSub \/ o = OpMul \/ exists s, expand_shapes (l_shape (x_lay a)) (l_shape (x_lay b)) = Ok s) -> array_arith junk o a b = Throw RuntimeError) /\
  array_flags junk f a b = Throw RuntimeError /\
  (~ usable (x_dt a) -> forall tb y, scalar_arith junk o a tb y = Throw RuntimeError /\ scalar_flags junk f a tb y = Throw RuntimeError).
Proof.
  intros junk o f a b H.
  assert (G : forall X (k : ty -> ty -> outcome X), (let! ta := elem_ty false (x_dt a) in let! tb := elem_ty false (x_dt b) in k ta tb) = Throw RuntimeError).
  { intros X k. destruct (elem_ty_cases (x_dt a)) as [(t & E)|E]; rewrite E; cbn [obind]; [|reflexivity].
    destruct H as [H|H]; [rewrite (elem_ty_other _ H) in E; discriminate|]. now rewrite (elem_ty_other _ H). }
  split; [|split].
  - intros K. destruct o; cbn [array_arith]; try apply G; unfold expand_arith; destruct K as [K|[K|(s & K)]]; try discriminate; rewrite K; apply G.
  - apply G.
  - intros Hn tb y. unfold scalar_arith, scalar_flags. now rewrite (elem_ty_other _ Hn).
Qed.
Print Assumptions C89_other_types.

(** ** Cases *)
Definition ints (t : ty) (l : list Z) : tarr := TArr (dtype_of t) (dense [zlen l]) (map NZ l).
Definition half : f32 := binary_normalize 24 128 prec24 emax128 mode_NE 1 (-1) false.
Definition nojunk (_ : Z) : elem := NZ 0.
(** The hypotheses are met by a row of int32 times a column of uint8; a sum wraps in uint8 and a quotient is truncated. *)
Example C89_case : array_of I32 (TArr (dtype_of I32) (dense [2; 3]) (map NZ [1; 2; 3; -4; 5; 6])) /\ array_of U8 (TArr (dtype_of U8) (dense [2; 1]) (map NZ [3; 200])) /\
  array_arith nojunk OpMul (TArr (dtype_of I32) (dense [2; 3]) (map NZ [1; 2; 3; -4; 5; 6])) (TArr (dtype_of U8) (dense [2; 1]) (map NZ [3; 200]))
    = Ok (TArr (dtype_of I32) (dense [2; 3]) (map NZ [3; 6; 9; -800; 1000; 1200])) /\
  array_arith nojunk OpAdd (ints U8 [250; 1]) (ints U8 [10; 2]) = Ok (ints U8 [4; 3]) /\
  array_arith nojunk OpDiv (ints I32 [-7; 7]) (ints U8 [2; 2]) = Ok (ints I32 [-3; 3]) /\
  array_arith nojunk OpDiv (ints I32 [-7; 7]) (ints U8 [2; 0]) = UB.
Proof.
  split; [|split; [|vm_compute; auto]]; (split; [unfold array_ty, small_int; auto|split; [reflexivity|]]); cbn [x_mem map];
    repeat (apply Forall_cons || apply Forall_nil); cbn; lia.
Qed.
Example C89_float_case : scalar_arith nojunk OpMul (ints U8 [3; 255]) F32 (NF half) = Ok (ints U8 [1; 127]) /\
  array_of U8 (ints U8 [3; 255]) /\ array_ty F32 /\ finite_elem (NF half) /\ nearest (NF half) = (/ 2)%R.
Proof.
  split; [vm_compute; reflexivity|]. split; [split; [apply U8_array|split; [reflexivity|]]; repeat (apply Forall_cons || apply Forall_nil); cbn; lia|].
  split; [now left|]. split; [reflexivity|]. cbn [nearest]. rewrite fval_finite by reflexivity. assert (E : half = (@B754_finite 24 128 false 8388608 (-24) eq_refl : f32)) by (apply B2SF_inj; vm_compute; reflexivity).
  rewrite E. cbv -[Rmult Rinv IZR]. lra.
Qed.
Example C89_flags_case : array_flags nojunk (fun ta tb => compare ta tb RGt) (ints I32 [5; -1; 7]) (ints U8 [4; 0; 7]) = Ok (ints U8 [1; 0; 0]) /\
  array_flags nojunk logical_and (ints U8 [1; 0; 1]) (ints U8 [1; 1; 0]) = Ok (ints U8 [1; 0; 0]) /\
  ~ usable (DType 2 64) /\ ~ usable (DType 0 64).
Proof.
  split; [vm_compute; reflexivity|]. split; [vm_compute; reflexivity|].
  split; intros (t & [-> |[-> |[-> | ->]]] & E); discriminate.
Qed.

(** C89: 'the result of an operation on numbers the type can hold is the mathematical one' is false:
    -4 / 2 beside uint32 is 2147483646, 16777217 + 0.0 is 16777216, the largest int32 plus 0.0 and 200 + 100.0 in uint8 are undefined;
    -1 is greater than 0 beside uint32; 16777217 equals 16777216.0; 1 and 2, 256 and 256 give 0. *)
Theorem C89_arithmetic_refuted :
  array_arith nojunk OpDiv (ints I32 [-4]) (ints U32 [2]) = Ok (ints I32 [2147483646]) /\
  scalar_arith nojunk OpAdd (ints I32 [16777217]) F32 (NF (f32_of_Z 0)) = Ok (ints I32 [16777216]) /\
  scalar_arith nojunk OpAdd (ints I32 [2147483647]) F32 (NF (f32_of_Z 0)) = UB /\
  scalar_arith nojunk OpAdd (ints U8 [200]) F32 (NF (f32_of_Z 100)) = UB /\
  scalar_arith nojunk OpAdd (ints U8 [200]) I32 (NZ 100) = Ok (ints U8 [44]).
Proof. vm_compute. auto. Qed.
Print Assumptions C89_arithmetic_refuted.
Theorem C89_compare_refuted :
  array_flags nojunk (fun ta tb => compare ta tb RGt) (ints I32 [-1]) (ints U32 [0]) = Ok (ints U8 [1]) /\
  scalar_flags nojunk (fun ta tb => compare ta tb REq) (ints I32 [16777217]) F32 (NF (f32_of_Z 16777216)) = Ok (ints U8 [1]) /\
  scalar_flags nojunk (fun ta tb => compare ta tb RGt) (ints I32 [16777217]) F32 (NF (f32_of_Z 16777216)) = Ok (ints U8 [0]) /\
  array_flags nojunk logical_and (ints U8 [1]) (ints U8 [2]) = Ok (ints U8 [0]) /\
  array_flags nojunk logical_and (ints I32 [256]) (ints I32 [256]) = Ok (ints U8 [0]).
Proof. vm_compute. auto. Qed.
Print Assumptions C89_compare_refuted.
