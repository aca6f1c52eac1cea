(** C99: arrays and numbers given from Python. *)
From Verif Require Import PyModel TypeFloat NdIndexFacts NdMemFacts NdProofs NdProofs2 PropNd CudaOffsetProofs DriftFloatProofs TypeFacts PropType.
From Coq Require Import ZifyBool Lia Reals Lra.
From Flocq Require Import Core BinarySingleNaN.
Local Open Scope Z_scope.

(** ** What Python sees *)
(** Where element [idx] of an array lies, given the position of the first one. *)
Fixpoint place (first : Z) (idx strides : list Z) : Z :=
  match idx, strides with i :: r, s :: t => place (first + i * s) r t | _, _ => first end.
Definition element (a : parray) (idx : list Z) : option elem := znth (p_cells a) (place (p_first a) idx (p_strides a)).
(** An array of element type [t], of any strides, all of whose elements are in its memory. *)
Definition py_array (t : ty) (a : parray) : Prop :=
  array_ty t /\ p_dtype a = dtype_of t /\ Forall (of_type t) (p_cells a) /\ p_shape a <> [] /\ length (p_strides a) = length (p_shape a) /\
  Forall (fun d => 0 <= d) (p_shape a) /\ zprod (p_shape a) < 2 ^ 31 /\
  forall idx, in_range (p_shape a) idx -> exists x, element a idx = Some x.
(** A result: a new array of this type and shape and with these elements. *)
Definition result_of (t : ty) (s : list Z) (c : tarr) (P : list Z -> elem -> Prop) : Prop :=
  array_of t c /\ x_lay c = dense s /\ forall idx, in_range s idx -> exists v, elt (x_mem c) (dense s) idx = Some v /\ P idx v.
Definition py_compare (less : bool) (junk : Z -> elem) : parray -> pynum -> pyresult := if less then py_less_than junk else py_greater_than junk.
Definition ordered (less : bool) (x y : R) : Prop := if less then (x < y)%R else (y < x)%R.
(** The integer result of an operation. *)
Definition on_ints (o : aop) (x y : Z) : Z := match o with OpAdd => x + y | OpSub => x - y | OpMul => x * y | OpDiv => Z.quot x y end.

(** ** Arrays *)
Lemma place_dot first idx strides : place first idx strides = first + dot idx strides.
Proof. revert first strides; induction idx as [|i r IH]; intros first [|s t]; cbn [place dot]; try lia. rewrite IH. lia. Qed.
Lemma zsum_zeros {A} (l : list A) : zsum (map (fun _ => 0) l) = 0.
Proof. induction l as [|x l IH]; [reflexivity|]. cbn [map]. rewrite zsum_cons. lia. Qed.
Lemma bland_facts t a : py_array t a -> let b := to_bland a in
  array_of t b /\ wf (x_lay b) /\ l_shape (x_lay b) = p_shape a /\ inside (x_lay b) (zlen (x_mem b)) /\
  forall idx, in_range (p_shape a) idx -> elt (x_mem b) (x_lay b) idx = element a idx.
Proof.
  intros (Ht & Dt & Fm & Ns & Ls & Ps & Sz & In). cbv zeta.
  assert (W : wf (x_lay (to_bland a))).
  { split; cbn; [exact Ls|]. destruct (p_shape a) as [|d r]; [congruence|]. cbn. now rewrite map_length. }
  assert (E : forall idx, in_range (p_shape a) idx -> cell (x_lay (to_bland a)) idx = place (p_first a) idx (p_strides a)).
  { intros idx R. rewrite (cell_dot _ _ W) by (cbn; now apply in_range_length). cbn [to_bland x_lay l_offsets l_strides]. rewrite place_dot.
    destruct (p_shape a) as [|d r]; [congruence|]. rewrite zsum_cons, zsum_zeros. lia. }
  split; [split; [exact Ht|split; [exact Dt|exact Fm]]|]. split; [exact W|]. split; [reflexivity|]. split.
  - intros idx R. rewrite (E idx R). destruct (In idx R) as (x & Ex). unfold element in Ex. apply znth_bounds in Ex. exact Ex.
  - intros idx R. unfold elt, element. rewrite (E idx R). reflexivity.
Qed.

(** C99: the library sees the elements that Python sees, whatever the strides. *)
Theorem C99_elements : forall t a, py_array t a ->
  exists b, b = to_bland a /\ l_shape (x_lay b) = p_shape a /\ x_dt b = p_dtype a /\
    forall idx, in_range (p_shape a) idx -> exists x, element a idx = Some x /\ elt (x_mem b) (x_lay b) idx = Some x /\ of_type t x.
Proof.
  intros t a H. destruct (bland_facts t a H) as ((_ & _ & Fm) & _ & Sh & _ & E). exists (to_bland a). split; [reflexivity|]. split; [exact Sh|]. split; [reflexivity|].
  intros idx R. destruct H as (_ & _ & _ & _ & _ & _ & _ & In). destruct (In idx R) as (x & Ex). exists x. split; [exact Ex|]. split; [now rewrite E|].
  eapply elt_typed; [exact Fm|]. rewrite <- (E idx R) in Ex. exact Ex.
Qed.
Print Assumptions C99_elements.

(** ** Numbers *)
Lemma choose_compare_byte k : 0 <= k <= 255 -> choose compare_overloads (PyInt k) = Some (U8, NZ k).
Proof. intros H. unfold choose, compare_overloads. cbn [first_match load_strict]. replace (fits U8 k) with true by (symmetry; apply fits_spec; [discriminate|cbn; lia]). reflexivity. Qed.
Lemma no_fit t k : t <> F32 -> ~ (least t <= k <= greatest t) -> fits t k = false.
Proof. intros Ht H. destruct (fits t k) eqn:E; [|reflexivity]. apply fits_spec in E; [contradiction|exact Ht]. Qed.
Lemma choose_compare_uint k : 256 <= k < 2 ^ 32 -> choose compare_overloads (PyInt k) = Some (U32, NZ k).
Proof.
  intros H. unfold choose, compare_overloads. cbn [first_match load_strict]. rewrite (no_fit U8) by (try discriminate; cbn; lia).
  replace (fits U32 k) with true by (symmetry; apply fits_spec; [discriminate|cbn; lia]). reflexivity.
Qed.
Lemma choose_compare_other k : k < 0 \/ 2 ^ 32 <= k -> choose compare_overloads (PyInt k) =
  if is_finite (f64_of_Z k) then Some (F32, NF (narrow (f64_of_Z k))) else None.
Proof.
  intros H. unfold choose, compare_overloads. cbn [first_match load_strict load_convert]. rewrite (no_fit U8) by (try discriminate; cbn; lia). rewrite (no_fit U32) by (try discriminate; cbn; lia).
  destruct (is_finite (f64_of_Z k)); reflexivity.
Qed.
Lemma choose_float_compare x : choose compare_overloads (PyFloat x) = Some (F32, NF (narrow x)).
Proof. unfold choose, compare_overloads. cbn [first_match load_strict load_convert]. destruct (same64 _ _); reflexivity. Qed.
Lemma choose_float_arith o x : o <> OpDiv -> choose (arith_overloads o) (PyFloat x) = Some (F32, NF (narrow x)).
Proof. intros H. unfold choose. destruct o; try congruence; cbn [arith_overloads first_match load_strict load_convert]; destruct (same64 _ _); reflexivity. Qed.

(** ** Comparisons *)
Lemma compare_run less junk ta a n tb y : py_array ta a -> array_ty tb -> of_type tb y -> choose compare_overloads n = Some (tb, y) ->
  exists c, py_compare less junk a n = Ran (Ok c) /\ result_of U8 (p_shape a) c (fun idx v => exists x b, element a idx = Some x /\ of_type ta x /\ v = flag b /\ compares ta tb (if less then RLt else RGt) x y b).
Proof.
  intros Ha Tb Ty Ch. destruct (bland_facts ta a Ha) as (A & W & Sh & I & E). pose proof Ha as (_ & _ & _ & _ & _ & Ps & Sz & In).
  destruct (C89_compare_scalar junk (if less then RLt else RGt) ta tb (to_bland a) y A Tb Ty W) as (c & Ec & Tc & Lc & Rc); [now rewrite Sh|now rewrite Sh|exact I|].
  exists c. split; [destruct less; unfold py_compare, py_less_than, py_greater_than; rewrite Ch; cbv iota in Ec; now rewrite Ec|].
  split; [exact Tc|]. rewrite Sh in *. split; [exact Lc|]. intros idx R. destruct (Rc idx R) as (x & t & Ex & Et & Ct). exists (flag t). rewrite Lc in Et. split; [exact Et|].
  exists x, t. rewrite <- (E idx R). split; [exact Ex|]. split; [|split; [reflexivity|exact Ct]]. destruct A as (_ & _ & Fm). eapply elt_typed; [exact Fm|exact Ex].
Qed.
Lemma less_related (less : bool) x y : related (if less then RLt else RGt) x y <-> ordered less x y. Proof. destruct less; cbn; tauto. Qed.
Lemma IZR_ordered (less : bool) i j : ordered less (IZR i) (IZR j) <-> if less then i < j else j < i.
Proof. destruct less; cbn; split; intros H; try (now apply IZR_lt); now apply lt_IZR. Qed.
(** Rounding an integer does not move it across a float below 2^24. *)
Lemma RN_int_order less i (y : R) : (Rabs y < IZR (2 ^ 24))%R -> ordered less (RN (IZR i)) y <-> ordered less (IZR i) y.
Proof.
  intros Hy. apply Rabs_def2 in Hy as (Y1 & Y2). destruct (Z_le_gt_dec (Z.abs i) (2 ^ 24)) as [Hi|Hi].
  - pose proof (nearest_small i Hi) as E. cbn [nearest] in E. now rewrite E.
  - assert (C : 2 ^ 24 <= i \/ i <= - 2 ^ 24) by lia. destruct C as [C|C].
    + pose proof (RN_mono _ _ (IZR_le _ _ C)) as M. assert (E : RN (IZR (2 ^ 24)) = IZR (2 ^ 24)) by (apply (nearest_small (2 ^ 24)); cbn; lia). rewrite E in M. apply IZR_le in C. destruct less; cbn [ordered]; lra.
    + pose proof (RN_mono _ _ (IZR_le _ _ C)) as M. assert (E : RN (IZR (- 2 ^ 24)) = IZR (- 2 ^ 24)) by (apply (nearest_small (- 2 ^ 24)); cbn; lia). rewrite E in M. apply IZR_le in C.
      rewrite opp_IZR in *. destruct less; cbn [ordered]; lra.
Qed.
Lemma small_float k : Z.abs k <= 2 ^ 24 -> is_finite (f64_of_Z k) = true /\ is_finite (narrow (f64_of_Z k)) = true /\ fval (narrow (f64_of_Z k)) = IZR k.
Proof.
  intros H. destruct (f64_of_Z_ok k) as (V & F); [lia|]. destruct (narrow_ok (f64_of_Z k) F) as (V2 & F2).
  { rewrite V, <- abs_IZR. apply Rle_trans with (IZR (2 ^ 24)); [apply IZR_le; lia|]. change (2 ^ 24) with (Zpower radix2 24). rewrite IZR_Zpower by lia. apply bpow_le. lia. }
  split; [exact F|]. split; [exact F2|]. rewrite TypeFloat.fval_finite by exact F2. rewrite V2, V. apply RN_format. apply format_int; lia.
Qed.

(** C99: a comparison with a Python int is right for every element when the int lies between -2^24 and 255, and for elements that are not negative up to
    2^32; for arrays of floats up to 2^24. *)
Definition comparable (k : Z) (x : elem) : Prop :=
  match x with NZ i => - 2 ^ 24 < k <= 255 \/ 256 <= k < 2 ^ 32 /\ 0 <= i | NF _ => Z.abs k <= 2 ^ 24 end.
Theorem C99_compare_int : forall less junk t a k, py_array t a -> - 2 ^ 24 <= k < 2 ^ 32 ->
  exists c, py_compare less junk a (PyInt k) = Ran (Ok c) /\ array_of U8 c /\ x_lay c = dense (p_shape a) /\
    forall idx x, in_range (p_shape a) idx -> element a idx = Some x ->
      exists b, elt (x_mem c) (dense (p_shape a)) idx = Some (flag b) /\
        (comparable k x -> b = true <-> not_nan x /\ ordered less (exactly x) (IZR k)).
Proof.
  intros less junk ta a k Ha Hk.
  assert (Go : forall tb y, array_ty tb -> of_type tb y -> choose compare_overloads (PyInt k) = Some (tb, y) ->
     (forall x b, of_type ta x -> comparable k x -> compares ta tb (if less then RLt else RGt) x y b -> b = true <-> not_nan x /\ ordered less (exactly x) (IZR k)) ->
     exists c, py_compare less junk a (PyInt k) = Ran (Ok c) /\ array_of U8 c /\ x_lay c = dense (p_shape a) /\
       forall idx x, in_range (p_shape a) idx -> element a idx = Some x ->
         exists b, elt (x_mem c) (dense (p_shape a)) idx = Some (flag b) /\ (comparable k x -> b = true <-> not_nan x /\ ordered less (exactly x) (IZR k))).
  { intros tb y Tb Ty Ch K. destruct (compare_run less junk ta a _ tb y Ha Tb Ty Ch) as (c & Ec & Tc & Lc & Rc). exists c. split; [exact Ec|]. split; [exact Tc|]. split; [exact Lc|].
    intros idx x R Ex. destruct (Rc idx R) as (v & Ev & x' & b & Ex' & Tx & -> & Cb). rewrite Ex in Ex'. injection Ex' as <-. exists b. split; [exact Ev|]. intros Cm. now apply K. }
  assert (Hin : forall tb, small_int tb -> of_type tb (NZ k) -> (tb = U32 -> 256 <= k) -> (tb = U8 \/ tb = U32) -> forall x b, of_type ta x -> comparable k x -> compares ta tb (if less then RLt else RGt) x (NZ k) b ->
     b = true <-> not_nan x /\ ordered less (exactly x) (IZR k)).
  { intros tb Sb Tk Big Which x b Tx Cm Cb. destruct x as [x|i]; cbn [compares not_nan exactly nearest comparable] in *.
    - rewrite Cb, less_related. assert (E : RN (IZR k) = IZR k) by (apply (nearest_small k Cm)). rewrite E. tauto.
    - rewrite Cb, less_related. assert (P : read_as (unsigned_pair ta tb) i = i /\ read_as (unsigned_pair ta tb) k = k).
      { unfold read_as. destruct (unsigned_pair ta tb) eqn:U; [|tauto]. assert (0 <= i < 2 ^ 32).
        { destruct Which as [-> | ->].
          - destruct ta; cbn in U; try discriminate. cbn in Tx. lia.
          - specialize (Big eq_refl). assert (G : 0 <= i) by lia. assert (N64 : ta <> I64) by (apply array_not, Ha). destruct ta; cbn in Tx; try contradiction; try congruence; lia. }
        assert (0 <= k < 2 ^ 32) by (destruct Which as [-> | ->]; cbn in Tk; lia). rewrite !Z.mod_small by lia. tauto. }
      destruct P as (-> & ->). tauto. }
  destruct (Z_lt_le_dec k 0) as [Neg|Pos]; [|destruct (Z_le_gt_dec k 255) as [B|B]].
  - assert (S : Z.abs k <= 2 ^ 24) by lia. destruct (small_float k S) as (F1 & F2 & V).
    apply (Go F32 (NF (narrow (f64_of_Z k)))); [now left|exact I|rewrite choose_compare_other by lia; now rewrite F1|].
    intros x b Tx Cm Cb. assert (Nn : is_nan (narrow (f64_of_Z k)) = false) by (destruct (narrow (f64_of_Z k)); try discriminate; reflexivity).
    assert (Cb' : b = true <-> not_nan x /\ ordered less (nearest x) (IZR k)).
    { destruct x; cbn [compares nearest not_nan exactly] in Cb |- *; rewrite Cb, less_related, V, Nn; tauto. }
    rewrite Cb'. destruct x as [x|i]; cbn [nearest exactly not_nan comparable] in *; [tauto|]. rewrite RN_int_order; [tauto|]. rewrite <- abs_IZR. apply IZR_lt. lia.
  - apply (Go U8 (NZ k)); [apply U8_array|cbn; lia|apply choose_compare_byte; lia|]. apply Hin; [right; now left|cbn; lia|discriminate|now left].
  - apply (Go U32 (NZ k)); [right; right; now right|cbn; lia|apply choose_compare_uint; lia|]. apply Hin; [right; now right|cbn; lia|lia|now right].
Qed.
Print Assumptions C99_compare_int.

(** C99: from 256 to 2^31 - 1, negative elements of int32 arrays count as larger than the int. *)
Theorem C99_compare_negative_refuted : forall less junk a k, py_array I32 a -> 256 <= k < 2 ^ 31 ->
  exists c, py_compare less junk a (PyInt k) = Ran (Ok c) /\
    forall idx i, in_range (p_shape a) idx -> element a idx = Some (NZ i) -> i < 0 -> elt (x_mem c) (dense (p_shape a)) idx = Some (flag (negb less)).
Proof.
  intros less junk a k Ha Hk.
  destruct (compare_run less junk I32 a (PyInt k) U32 (NZ k) Ha) as (c & Ec & Tc & Lc & Rc); [right; right; now right|cbn; lia|apply choose_compare_uint; lia|].
  exists c. split; [exact Ec|]. intros idx i R Ex Ni. destruct (Rc idx R) as (v & Ev & x' & b & Ex' & Tx & -> & Cb). rewrite Ex in Ex'. injection Ex' as <-. rewrite Ev. do 2 f_equal.
  cbn [compares unsigned_pair read_as of_type least greatest] in *. rewrite less_related, IZR_ordered in Cb.
  assert (E : i mod 4294967296 = i + 4294967296) by (symmetry; apply Z.mod_unique with (-1); lia). rewrite E, (Z.mod_small k) in Cb by lia.
  destruct less, b; cbn; try reflexivity; destruct Cb as (C1 & C2); [specialize (C1 eq_refl); lia|]. assert (false = true) by (apply C2; lia). discriminate.
Qed.
Print Assumptions C99_compare_negative_refuted.
(** A number that the library takes as a float: a Python float, and a Python int that no integer overload takes. *)
Lemma compare_as_float less junk t a n (v : f32) (y : R) : py_array t a -> choose compare_overloads n = Some (F32, NF v) -> is_finite v = true -> fval v = RN y ->
  exists c, py_compare less junk a n = Ran (Ok c) /\ array_of U8 c /\ x_lay c = dense (p_shape a) /\
    forall idx x, in_range (p_shape a) idx -> element a idx = Some x ->
      exists b, elt (x_mem c) (dense (p_shape a)) idx = Some (flag b) /\ (b = true <-> not_nan x /\ ordered less (RN (exactly x)) (RN y)) /\
        (b = true -> ordered less (exactly x) y) /\
        (RN y = y -> match x with NZ _ => (Rabs y < IZR (2 ^ 24))%R | NF _ => True end -> b = true <-> not_nan x /\ ordered less (exactly x) y).
Proof.
  intros Ha Ch Fv Ev. destruct (compare_run less junk t a n F32 (NF v) Ha) as (c & Ec & Tc & Lc & Rc); [now left|exact I|exact Ch|].
  exists c. split; [exact Ec|]. split; [exact Tc|]. split; [exact Lc|]. intros idx x R Ex. destruct (Rc idx R) as (w & Ew & x' & b & Ex' & Tx & -> & Cb). rewrite Ex in Ex'. injection Ex' as <-.
  exists b. split; [exact Ew|]. assert (Nn : is_nan v = false) by (destruct v; try discriminate; reflexivity).
  assert (Cb' : b = true <-> not_nan x /\ ordered less (RN (exactly x)) (RN y)).
  { rewrite <- nearest_RN, <- Ev. destruct x; cbn [compares nearest not_nan exactly] in Cb |- *; rewrite Cb, less_related, Nn; tauto. }
  split; [exact Cb'|]. split.
  - intros Hb. apply Cb' in Hb as (_ & H). destruct less; cbn [ordered] in *.
    + destruct (Rlt_or_le (exactly x) y) as [|G]; [assumption|]. apply RN_mono in G. lra.
    + destruct (Rlt_or_le y (exactly x)) as [|G]; [assumption|]. apply RN_mono in G. lra.
  - intros Ey Hx. rewrite Cb', Ey. destruct x as [u|i].
    + pose proof (nearest_RN (NF u)) as N. cbn [nearest] in N. rewrite <- N. tauto.
    + cbn [exactly not_nan]. rewrite RN_int_order by exact Hx. tauto.
Qed.
Lemma narrow_float (x : f64) : is_finite x = true -> (Rabs (B2R x) <= bpow radix2 100)%R -> is_finite (narrow x) = true /\ fval (narrow x) = RN (B2R x).
Proof. intros F B. destruct (narrow_ok x F B) as (V & F2). split; [exact F2|]. rewrite TypeFloat.fval_finite by exact F2. exact V. Qed.
Lemma int_float k : Z.abs k <= 2 ^ 53 -> is_finite (f64_of_Z k) = true /\ is_finite (narrow (f64_of_Z k)) = true /\ fval (narrow (f64_of_Z k)) = RN (IZR k).
Proof.
  intros H. destruct (f64_of_Z_ok k H) as (V & F). split; [exact F|]. rewrite <- V. apply narrow_float; [exact F|].
  rewrite V, <- abs_IZR. apply Rle_trans with (IZR (2 ^ 53)); [apply IZR_le; lia|]. change (2 ^ 53) with (Zpower radix2 53). rewrite IZR_Zpower by lia. apply bpow_le. lia.
Qed.
(** C99: a comparison with a Python float compares the numbers rounded to binary32: when it holds, it is right; when the float is a binary32 number it is exact, in integer
    arrays if the float is below 2^24.  A NaN compares false. *)
Theorem C99_compare_float : forall less junk t a f, py_array t a ->
  (is_finite f = true -> (Rabs (B2R f) <= bpow radix2 100)%R ->
   exists c, py_compare less junk a (PyFloat f) = Ran (Ok c) /\ array_of U8 c /\ x_lay c = dense (p_shape a) /\
     forall idx x, in_range (p_shape a) idx -> element a idx = Some x ->
       exists b, elt (x_mem c) (dense (p_shape a)) idx = Some (flag b) /\ (b = true <-> not_nan x /\ ordered less (RN (exactly x)) (RN (B2R f))) /\
         (b = true -> ordered less (exactly x) (B2R f)) /\
         (RN (B2R f) = B2R f -> match x with NZ _ => (Rabs (B2R f) < IZR (2 ^ 24))%R | NF _ => True end -> b = true <-> not_nan x /\ ordered less (exactly x) (B2R f))) /\
  (is_nan f = true -> exists c, py_compare less junk a (PyFloat f) = Ran (Ok c) /\ forall idx, in_range (p_shape a) idx -> elt (x_mem c) (dense (p_shape a)) idx = Some (flag false)).
Proof.
  intros less junk t a f Ha. split.
  - intros F B. destruct (narrow_float f F B) as (F2 & V). apply (compare_as_float less junk t a (PyFloat f) (narrow f) (B2R f)); [exact Ha|apply choose_float_compare|exact F2|exact V].
  - intros Nn. destruct (compare_run less junk t a (PyFloat f) F32 (NF (narrow f)) Ha) as (c & Ec & Tc & Lc & Rc); [now left|exact I|apply choose_float_compare|].
    exists c. split; [exact Ec|]. intros idx R. destruct (Rc idx R) as (w & Ew & x & b & Ex & Tx & -> & Cb). rewrite Ew. do 2 f_equal. destruct b; [|reflexivity]. exfalso.
    assert (N2 : is_nan (narrow f) = true) by (destruct f; try discriminate; reflexivity).
    destruct x; cbn [compares not_nan] in Cb; destruct (proj1 Cb eq_refl) as (_ & K & _); congruence.
Qed.
Print Assumptions C99_compare_float.
(** C99: beyond the ints of C99_compare_int, an int is compared as a float. *)
Theorem C99_compare_large_int : forall less junk t a k, py_array t a -> (k < 0 \/ 2 ^ 32 <= k) -> Z.abs k <= 2 ^ 53 ->
  exists c, py_compare less junk a (PyInt k) = Ran (Ok c) /\ array_of U8 c /\ x_lay c = dense (p_shape a) /\
    forall idx x, in_range (p_shape a) idx -> element a idx = Some x ->
      exists b, elt (x_mem c) (dense (p_shape a)) idx = Some (flag b) /\ (b = true <-> not_nan x /\ ordered less (RN (exactly x)) (RN (IZR k))) /\
        (b = true -> ordered less (exactly x) (IZR k)).
Proof.
  intros less junk t a k Ha Hk Sz. destruct (int_float k Sz) as (F & F2 & V).
  destruct (compare_as_float less junk t a (PyInt k) (narrow (f64_of_Z k)) (IZR k) Ha) as (c & Ec & Tc & Lc & Rc); [rewrite choose_compare_other by exact Hk; now rewrite F|exact F2|exact V|].
  exists c. split; [exact Ec|]. split; [exact Tc|]. split; [exact Lc|]. intros idx x R Ex. destruct (Rc idx x R Ex) as (b & H1 & H2 & H3 & _). exists b. auto.
Qed.
Print Assumptions C99_compare_large_int.

(** ** Arithmetic *)
Lemma arith_run junk o ta a n tb y : py_array ta a -> array_ty tb -> of_type tb y -> choose (arith_overloads o) n = Some (tb, y) ->
  exists r rs, py_arith junk o a n = Ran r /\ elementwise ta (p_shape a) rs r /\
    forall idx, in_range (p_shape a) idx -> exists x, element a idx = Some x /\ of_type ta x /\ expected ta tb o x y (rs idx).
Proof.
  intros Ha Tb Ty Ch. destruct (bland_facts ta a Ha) as (A & W & Sh & I & E). pose proof Ha as (_ & _ & _ & _ & _ & Ps & Sz & In).
  destruct (C89_scalar junk o ta tb (to_bland a) y A Tb Ty W) as (rs & El & Ex); [now rewrite Sh|now rewrite Sh|exact I|]. rewrite Sh in *.
  exists (scalar_arith junk o (to_bland a) tb y), rs. split; [unfold py_arith; now rewrite Ch|]. split; [exact El|].
  intros idx R. destruct (Ex idx R) as (x & Hx & He). exists x. rewrite <- (E idx R). split; [exact Hx|]. split; [|exact He]. destruct A as (_ & _ & Fm). eapply elt_typed; [exact Fm|exact Hx].
Qed.
(** Which ints the integer overloads take. *)
Definition int_argument (o : aop) (k : Z) : Prop := o <> OpDiv /\ - 2 ^ 31 <= k /\ if match o with OpMul => true | _ => false end then k < 2 ^ 32 else k < 2 ^ 31.
(** Operations carried out modulo 2^32. *)
Definition modular (t : ty) (o : aop) (k : Z) : Prop := t = U32 \/ o = OpMul /\ 256 <= k.
Lemma fit t k : t <> F32 -> least t <= k <= greatest t -> fits t k = true. Proof. intros Ht H. now apply fits_spec. Qed.
Lemma choose_arith_int o k : int_argument o k -> exists tb, choose (arith_overloads o) (PyInt k) = Some (tb, NZ k) /\ small_int tb /\ of_type tb (NZ k) /\ (tb = U32 <-> o = OpMul /\ 256 <= k).
Proof.
  intros (Hd & L & H). unfold choose. destruct o; try congruence; cbn [arith_overloads first_match load_strict].
  - exists I32. rewrite fit by (try discriminate; cbn; lia). split; [reflexivity|]. split; [now left|]. split; [cbn; lia|]. split; [discriminate|]. intros (K & _); discriminate.
  - exists I32. rewrite fit by (try discriminate; cbn; lia). split; [reflexivity|]. split; [now left|]. split; [cbn; lia|]. split; [discriminate|]. intros (K & _); discriminate.
  - destruct (Z_lt_le_dec k 0) as [N|N]; [|destruct (Z_le_gt_dec k 255) as [B|B]].
    + exists I32. rewrite (no_fit U8), (no_fit U32), fit by (try discriminate; cbn; lia). split; [reflexivity|]. split; [now left|]. split; [cbn; lia|]. split; [discriminate|lia].
    + exists U8. rewrite fit by (try discriminate; cbn; lia). split; [reflexivity|]. split; [right; now left|]. split; [cbn; lia|]. split; [discriminate|lia].
    + exists U32. rewrite (no_fit U8), fit by (try discriminate; cbn; lia). split; [reflexivity|]. split; [right; now right|]. split; [cbn; lia|]. split; [split; [reflexivity|lia]|reflexivity].
Qed.
(** C99: sums, differences and products of an integer array and a Python int are the exact ones modulo the range of the array's type; outside int32 they are undefined unless the
    operation is modular. *)
Theorem C99_arith_int : forall junk o t a k, small_int t -> py_array t a -> int_argument o k ->
  ((forall idx i, in_range (p_shape a) idx -> element a idx = Some (NZ i) -> modular t o k \/ - 2 ^ 31 <= on_ints o i k < 2 ^ 31) ->
   exists c, py_arith junk o a (PyInt k) = Ran (Ok c) /\ result_of t (p_shape a) c (fun idx v => exists i z, element a idx = Some (NZ i) /\ v = NZ z /\ stands_for t (on_ints o i k) z /\
     (least t <= on_ints o i k <= greatest t -> z = on_ints o i k))) /\
  ((exists idx i, in_range (p_shape a) idx /\ element a idx = Some (NZ i) /\ ~ modular t o k /\ ~ (- 2 ^ 31 <= on_ints o i k < 2 ^ 31)) -> py_arith junk o a (PyInt k) = Ran UB).
Proof.
  intros junk o t a k St Ha Hk. destruct (choose_arith_int o k Hk) as (tb & Ch & Sb & Tb & U).
  destruct (arith_run junk o t a (PyInt k) tb (NZ k) Ha (or_intror Sb) Tb Ch) as (r & rs & Er & (Good & Bad) & Ex). rewrite Er.
  assert (Hmod : modular t o k <-> unsigned_pair t tb = true).
  { unfold modular. rewrite <- U. destruct St as [-> |[-> | ->]]; destruct tb; cbn; split; try tauto; try discriminate; intros [?|?]; discriminate. }
  assert (Hex : forall i, int_exact (unsigned_pair t tb) o i k = on_ints o i k) by (intros i; destruct o; try reflexivity; destruct Hk as (N & _); congruence).
  assert (Hdef : forall i, int_defined (unsigned_pair t tb) o i k <-> modular t o k \/ - 2 ^ 31 <= on_ints o i k < 2 ^ 31).
  { intros i. rewrite Hmod. specialize (Hex i). destruct Hk as (N & _). destruct o; try congruence; cbn [int_defined]; rewrite Hex; destruct (unsigned_pair t tb); split; intros [G|G]; try discriminate; try (now left); right; change (2 ^ 31) with 2147483648 in *; lia. }
  destruct (small_not _ St) as (NF32 & _).
  assert (Int : forall idx, in_range (p_shape a) idx -> exists i, element a idx = Some (NZ i) /\ expected t tb o (NZ i) (NZ k) (rs idx)).
  { intros idx R. destruct (Ex idx R) as (x & H1 & H2 & H3). destruct x as [x|i]; [|eauto]. destruct t; cbn in H2; try contradiction; congruence. }
  split.
  - intros Fit. assert (Val : forall idx, in_range (p_shape a) idx -> exists i z, element a idx = Some (NZ i) /\ rs idx = Ok (NZ z) /\ stands_for t (on_ints o i k) z).
    { intros idx R. destruct (Int idx R) as (i & Hi & (E1 & _)). destruct (E1 (proj2 (Hdef i) (Fit idx i R Hi))) as (z & Ez & Sz). rewrite Hex in Sz. eauto. }
    destruct Good as (c & -> & Tc & Lc & _ & Rc); [intros idx R; destruct (Val idx R) as (i & z & _ & E & _); eauto|].
    exists c. split; [reflexivity|]. split; [exact Tc|]. split; [exact Lc|]. intros idx R. destruct (Rc idx R) as (v & Ev & Ec). exists v. split; [exact Ec|].
    destruct (Val idx R) as (i & z & Hi & Hz & Sz). rewrite Hz in Ev. injection Ev as <-. exists i, z. split; [exact Hi|]. split; [reflexivity|]. split; [exact Sz|].
    intros B. eapply stands_unique; [exact NF32|exact Sz|]. now apply stands_self.
  - intros (idx & i & R & Hi & N1 & N2). f_equal. apply Bad. exists idx. split; [exact R|]. destruct (Int idx R) as (i' & Hi' & (_ & E2)). rewrite Hi in Hi'. injection Hi' as <-. apply E2. rewrite Hdef. tauto.
Qed.
Print Assumptions C99_arith_int.

(** C99: with a Python float, with an int that no integer overload takes, and between a float array and any number, the operands and the result are rounded to binary32; the result has
    the type of the array and is undefined if that cannot hold it. *)
Definition float_argument (t : ty) (o : aop) (n : pynum) (y : R) : Prop :=
  o <> OpDiv /\
  match n with
  | PyFloat f => is_finite f = true /\ (Rabs (B2R f) <= bpow radix2 100)%R /\ y = B2R f
  | PyInt k => Z.abs k <= 2 ^ 53 /\ y = IZR k /\ (t = F32 \/ ~ int_argument o k)
  end.
Theorem C99_arith_float : forall junk o t a n y, py_array t a -> float_argument t o n y ->
  exists r rs, py_arith junk o a n = Ran r /\ elementwise t (p_shape a) rs r /\
    forall idx, in_range (p_shape a) idx -> exists x, element a idx = Some x /\ (finite_elem x -> float_result t (RN (real_op o (RN (exactly x)) (RN y))) (rs idx)).
Proof.
  intros junk o t a n y Ha (Nd & H).
  assert (Go : forall tb v, array_ty tb -> of_type tb v -> choose (arith_overloads o) n = Some (tb, v) -> finite_elem v -> nearest v = RN y -> t = F32 \/ tb = F32 ->
    exists r rs, py_arith junk o a n = Ran r /\ elementwise t (p_shape a) rs r /\
      forall idx, in_range (p_shape a) idx -> exists x, element a idx = Some x /\ (finite_elem x -> float_result t (RN (real_op o (RN (exactly x)) (RN y))) (rs idx))).
  { intros tb v Tb Tv Ch Fv Nv D. destruct (arith_run junk o t a n tb v Ha Tb Tv Ch) as (r & rs & Er & El & Ex). exists r, rs. split; [exact Er|]. split; [exact El|].
    intros idx R. destruct (Ex idx R) as (x & H1 & H2 & H3). exists x. split; [exact H1|]. intros Fx. rewrite <- nearest_RN, <- Nv.
    destruct x as [x|i], v as [v|j]; cbn [expected] in H3; try (apply H3; [exact Fx|exact Fv|congruence]).
    exfalso. destruct D as [-> | ->]; [exact H2|exact Tv]. }
  destruct n as [k|f].
  - destruct H as (Sk & -> & D). destruct (int_float k Sk) as (F & F2 & V).
    assert (Dec : int_argument o k \/ ~ int_argument o k) by (unfold int_argument; destruct o; try congruence; cbv iota; match goal with |- (_ /\ ?P) \/ _ => assert (P \/ ~ P) by lia end; tauto).
    destruct Dec as [I|NI].
    + destruct (choose_arith_int o k I) as (tb & Ch & Sb & Tb & _). apply (Go tb (NZ k) (or_intror Sb) Tb Ch); [exact Logic.I|reflexivity|]. left. tauto.
    + apply (Go F32 (NF (narrow (f64_of_Z k)))); [now left|exact Logic.I| |exact F2|exact V|now right].
      unfold choose. destruct o; try congruence; cbn [arith_overloads first_match load_strict load_convert]; unfold int_argument in NI; cbv iota in NI;
        (match type of NI with ~ (_ /\ ?P) => assert (NI' : ~ P) by tauto end); rewrite (no_fit I32 k) by (try discriminate; cbn; lia); try (rewrite F; reflexivity).
      rewrite (no_fit U8 k), (no_fit U32 k) by (try discriminate; cbn; lia). rewrite F. reflexivity.
  - destruct H as (Ff & Bf & ->). destruct (narrow_float f Ff Bf) as (F2 & V). apply (Go F32 (NF (narrow f))); [now left|exact Logic.I|now apply choose_float_arith|exact F2|exact V|now right].
Qed.
Print Assumptions C99_arith_float.
(** ** Refusals *)
Lemma huge_int k : 2 ^ 1024 <= Z.abs k -> is_finite (f64_of_Z k) = false.
Proof.
  intros H. pose proof (binary_normalize_correct 53 1024 prec53 emax1024 mode_NE k 0 false) as C. cbv zeta in C.
  assert (EF : F2R (Float radix2 k 0) = IZR k) by (unfold F2R; cbn; ring). rewrite EF in C. rewrite Rlt_bool_false in C.
  - unfold f64_of_Z. set (x := binary_normalize _ _ _ _ _ _ _ _) in *. destruct x as [s|s| |s m e B]; try reflexivity; exfalso; revert C; cbn [B2SF]; unfold binary_overflow; cbn [overflow_to_inf]; discriminate.
  - apply abs_round_ge_generic; [exact (fexp_correct 53 1024 prec53)|apply valid_rnd_N| |].
    + change (SpecFloat.fexp 53 1024) with (FLT_exp (-1074) 53). apply generic_format_FLT_bpow; [reflexivity|lia].
    + rewrite <- abs_IZR. rewrite <- IZR_Zpower by lia. apply IZR_le. exact H.
Qed.
(** C99: dividing by a number, and ints too large for a double, are TypeErrors; arrays of other types (float64, the default of numpy, among them) throw. *)
Theorem C99_refused : forall less junk o a n,
  py_arith junk OpDiv a n = TypeError /\
  (forall k, 2 ^ 1024 <= Z.abs k -> py_compare less junk a (PyInt k) = TypeError /\ py_arith junk o a (PyInt k) = TypeError) /\
  (~ usable (p_dtype a) -> (py_compare less junk a n = TypeError \/ py_compare less junk a n = Ran (Throw RuntimeError)) /\ (py_arith junk o a n = TypeError \/ py_arith junk o a n = Ran (Throw RuntimeError))).
Proof.
  intros less junk o a n. split; [reflexivity|]. split.
  - intros k Hk. assert (P : 2 ^ 32 < 2 ^ 1024) by reflexivity. pose proof (huge_int k Hk) as F. set (big := 2 ^ 1024) in *. clearbody big.
    assert (N1 : fits U8 k = false) by (apply no_fit; [discriminate|cbn [least greatest]; lia]). assert (N2 : fits U32 k = false) by (apply no_fit; [discriminate|cbn [least greatest]; lia]).
    assert (N3 : fits I32 k = false) by (apply no_fit; [discriminate|cbn [least greatest]; lia]).
    split.
    + destruct less; unfold py_compare, py_less_than, py_greater_than, choose, compare_overloads; cbn [first_match load_strict load_convert]; rewrite N1, N2, F; reflexivity.
    + unfold py_arith, choose. destruct o; cbn [arith_overloads first_match load_strict load_convert]; rewrite ?N1, ?N2, ?N3, ?F; reflexivity.
  - intros U. pose proof (C89_other_types junk o (fun ta tb => compare ta tb (if less then RLt else RGt)) (to_bland a) (to_bland a) (or_introl U)) as (_ & _ & K). specialize (K U). split.
    + unfold py_compare, py_less_than, py_greater_than. destruct less; destruct (choose compare_overloads n) as [(t, v)|]; auto; right; f_equal; apply (K t v).
    + unfold py_arith. destruct (choose (arith_overloads o) n) as [(t, v)|]; auto. right. f_equal. apply (K t v).
Qed.
Print Assumptions C99_refused.

(** ** Slices *)
Lemma zprod_upd_le s n f : Forall (fun d => 0 <= d) s -> (forall d, nth_error s n = Some d -> 0 <= f d <= d) -> 0 <= zprod (upd s n f) <= zprod s.
Proof.
  revert n; induction s as [|d s IH]; intros n Hs Hf; [destruct n; cbn [upd]; split; vm_compute; discriminate|]. inversion Hs as [|? ? Hd Hs']; subst. pose proof (zprod_nonneg s Hs'). destruct n as [|n]; cbn [upd]; rewrite !zprod_cons.
  - specialize (Hf d eq_refl). nia.
  - specialize (IH n Hs' Hf). nia.
Qed.
(** C99: a slice taken from Python is a new array of the elements start, start + stride, ... along the axis. *)
Theorem C99_slice : forall junk t a dim start stop stride sz, py_array t a -> znth (p_shape a) dim = Some sz -> 0 <= start <= Z.min stop sz -> 0 < stride ->
  let s := upd (p_shape a) (Z.to_nat dim) (fun _ => (Z.min stop sz - start) / stride) in
  exists c, py_slice junk a dim start stop stride = Ran (Ok c) /\
    result_of t s c (fun idx v => element a (upd idx (Z.to_nat dim) (fun i => start + i * stride)) = Some v).
Proof.
  intros junk t a dim start stop stride sz Ha Hd Hs Hst s. destruct (bland_facts t a Ha) as (A & W & Sh & I & E). pose proof Ha as (Ht & Dt & Fm & _ & _ & Ps & Sz & In).
  assert (Nz : 0 <= sz) by lia.
  destruct (C02_slice_window (x_lay (to_bland a)) dim start stop stride sz W) as [(K & _)|[(_ & K & _)|(_ & v & Ev & Wv & Sv & Cv)]]; [now rewrite Sh|exact Nz|lia|lia|exact Hst|lia|lia|].
  rewrite Sh in Sv, Cv. fold s in Sv.
  assert (Bq : 0 <= (Z.min stop sz - start) / stride <= sz) by (split; [apply Z.div_pos; lia|apply Z.div_le_upper_bound; [lia|nia]]).
  assert (Ns : small s).
  { split; [unfold s; apply upd_Forall; [exact Ps|intros; lia]|]. eapply Z.le_lt_trans; [|exact Sz]. apply zprod_upd_le; [exact Ps|]. intros d Ed. apply znth_nth_error in Hd. rewrite Hd in Ed. injection Ed as <-. lia. }
  assert (El : forall idx, in_range s idx -> elt (p_cells a) v idx = element a (upd idx (Z.to_nat dim) (fun i => start + i * stride)) /\ exists x, element a (upd idx (Z.to_nat dim) (fun i => start + i * stride)) = Some x).
  { intros idx R. rewrite <- Sv in R. destruct (Cv idx R) as (R' & C). split; [|apply In, R']. rewrite <- (E _ R'). unfold elt. now rewrite C. }
  destruct (assign_slice_correct (fun x : elem => x) (dense s) v (fresh junk s) (p_cells a)) as (m & Em & Lm & Hm & _).
  - apply dense_wf.
  - exact Wv.
  - exact Ns.
  - exact Sv.
  - rewrite fresh_length by apply Ns. apply dense_inside.
  - apply dense_separate.
  - intros idx R. rewrite Sv in R. destruct (El idx R) as (E1 & x & E2). rewrite E2 in E1. unfold elt in E1. now apply znth_bounds in E1.
  - assert (Ty : elem_ty true (p_dtype a) = Ok t) by (rewrite Dt; destruct Ht as [-> |[-> |[-> | ->]]]; reflexivity).
    exists (TArr (p_dtype a) (dense s) m). split.
    + unfold py_slice. rewrite Ev. cbn [obind]. change (x_dt (to_bland a)) with (p_dtype a). rewrite Ty. cbn [obind]. rewrite Sv. change (x_mem (to_bland a)) with (p_cells a). rewrite Em. reflexivity.
    + rewrite fresh_length in Lm by apply Ns. split; [|split; [reflexivity|]].
      * split; [exact Ht|]. split; [exact Dt|]. cbn [x_mem]. apply Forall_forall. intros x Hx. apply in_znth in Hx as (i & Hi & Ei). rewrite Lm in Hi.
        destruct (dense_onto s i (proj1 Ns) Hi) as (idx & R & C). destruct (Hm idx R) as (y & Ey & Ey'). unfold elt in Ey'. rewrite C, Ei in Ey'. injection Ey' as ->. eapply elt_typed; [exact Fm|exact Ey].
      * intros idx R. destruct (Hm idx R) as (y & Ey & Ey'). exists y. split; [exact Ey'|]. destruct (El idx R) as (E1 & _). congruence.
Qed.
Print Assumptions C99_slice.

(** ** Cases *)
(** A two-by-two view of every other element, backwards: 6 7 / 300 -10. *)
Definition flipped : parray := PArray (dtype_of I32) [2; 2] [-3; -2] 5 (map NZ [-10; -3; 300; 7; 5; 6]).
Definition from_list (t : ty) (l : list Z) : parray := PArray (dtype_of t) [zlen l] [1] 0 (map NZ l).
Definition one_and_a_half : f64 := binary_normalize 53 1024 prec53 emax1024 mode_NE 3 (-1) false.
Definition table (t : ty) (s l : list Z) : tarr := TArr (dtype_of t) (dense s) (map NZ l).
(** The hypotheses are met by it. *)
Example C99_case : py_array I32 flipped /\ element flipped [1; 0] = Some (NZ 300) /\
  py_less_than nojunk flipped (PyInt 7) = Ran (Ok (table U8 [2; 2] [1; 0; 0; 1])) /\
  py_greater_than nojunk flipped (PyInt (-20)) = Ran (Ok (table U8 [2; 2] [1; 1; 1; 1])) /\
  py_greater_than nojunk flipped (PyFloat one_and_a_half) = Ran (Ok (table U8 [2; 2] [1; 1; 1; 0])) /\
  py_arith nojunk OpSub flipped (PyInt 1000) = Ran (Ok (table I32 [2; 2] [-994; -993; -700; -1010])) /\
  py_arith nojunk OpMul flipped (PyFloat one_and_a_half) = Ran (Ok (table I32 [2; 2] [9; 10; 450; -15])) /\
  py_slice nojunk flipped 1 1 2 1 = Ran (Ok (table I32 [2; 1] [7; -10])).
Proof.
  split; [|vm_compute; repeat split].
  split; [right; left; reflexivity|]. split; [reflexivity|]. split; [repeat (apply Forall_cons || apply Forall_nil); cbn; lia|]. split; [discriminate|]. split; [reflexivity|].
  split; [repeat (apply Forall_cons || apply Forall_nil); lia|]. split; [reflexivity|].
  intros idx R. inversion R as [|? i ? r H1 R2]; subst. inversion R2 as [|? j ? r' H2 R3]; subst. inversion R3; subst.
  assert (i = 0 \/ i = 1) as [-> | ->] by lia; assert (j = 0 \/ j = 1) as [-> | ->] by lia; eexists; reflexivity.
Qed.
Example C99_arguments : int_argument OpMul 4000000000 /\ int_argument OpAdd (-5) /\ ~ int_argument OpAdd 3000000000 /\ float_argument I32 OpAdd (PyInt 3000000000) 3000000000 /\
  float_argument I32 OpMul (PyFloat one_and_a_half) (B2R one_and_a_half) /\ comparable 300 (NZ 5) /\ comparable (-20) (NZ (-10)) /\ ~ usable (DType 2 64).
Proof.
  split; [split; [discriminate|lia]|]. split; [split; [discriminate|lia]|]. split; [intros (_ & K); lia|]. split; [split; [discriminate|]; split; [lia|]; split; [reflexivity|]; right; intros (_ & K); lia|].
  split; [|split; [cbn; lia|]; split; [cbn; lia|]; intros (t & [-> |[-> |[-> | ->]]] & E); discriminate].
  split; [discriminate|]. split; [vm_compute; reflexivity|]. split; [|reflexivity].
  assert (E : one_and_a_half = (@B754_finite 53 1024 false 6755399441055744 (-52) eq_refl : f64)) by (apply B2SF_inj; vm_compute; reflexivity).
  assert (V : B2R one_and_a_half = (3 / 2)%R) by (rewrite E; unfold B2R, F2R; cbn [Fnum Fexp cond_Zopp bpow]; change (Z.pow_pos radix2 52) with (2 ^ 52); field_simplify; [|]; try lra).
  rewrite V. rewrite Rabs_pos_eq by lra. apply Rle_trans with (bpow radix2 1); [change (bpow radix2 1) with 2%R; lra|apply bpow_le; lia].
Qed.

(** C99: 'a Python number means the same to every function' is false: 3000000000 is a float to add but a uint32 to multiply, so one is lost in a sum; -1 is less than 255 but not than 300;
    an int32 times 65536 wraps while times -65536 it is undefined; -16777216 is not greater than -16777217. *)
Theorem C99_numbers_refuted :
  py_arith nojunk OpAdd (from_list U32 [1]) (PyInt 3000000000) = Ran (Ok (ints U32 [3000000000])) /\
  py_arith nojunk OpMul (from_list U32 [1]) (PyInt 3000000001) = Ran (Ok (ints U32 [3000000001])) /\
  py_less_than nojunk (from_list I32 [-1]) (PyInt 255) = Ran (Ok (ints U8 [1])) /\
  py_less_than nojunk (from_list I32 [-1]) (PyInt 300) = Ran (Ok (ints U8 [0])) /\
  py_arith nojunk OpMul (from_list I32 [65536]) (PyInt 65536) = Ran (Ok (ints I32 [0])) /\
  py_arith nojunk OpMul (from_list I32 [65536]) (PyInt (-65536)) = Ran UB /\
  py_greater_than nojunk (from_list I32 [-16777216]) (PyInt (-16777217)) = Ran (Ok (ints U8 [0])).
Proof. vm_compute. repeat split. Qed.
Print Assumptions C99_numbers_refuted.
