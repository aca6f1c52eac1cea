(** C110: generated channelizer responses and what equalizing with them does, in IEEE single precision. *)
From Verif Require Import FreqProofs PropFreq NdMemFacts NdProofs NdProofs2 RedProofs2 RedProofs3 FlagProofs FlagProofs3 PropRed PropNd PropFlag PropResp EqModel.
From Coq Require Import ZifyBool ZifyNat Lia Reals Lra Psatz.
From Flocq Require Import Core BinarySingleNaN.
From Verif Require Import DriftFloatProofs.
From Verif Require KurtProofs.
Local Open Scope Z_scope.

(** ** What is expected *)
(** A response without energy: nowhere a number.  Otherwise: numbers from 0 to 1, and 1 somewhere. *)
Definition blank (fine : Z) (v : Z -> f32) : Prop := forall f, 0 <= f < fine -> is_nan (v f) = true.
Definition normalised (fine : Z) (v : Z -> f32) : Prop :=
  (forall f, 0 <= f < fine -> is_finite (v f) = true /\ (0 <= B2R (v f) <= 1)%R) /\ exists f, 0 <= f < fine /\ B2R (v f) = 1%R.
(** The taps, padded with zeros to the span of all channels. *)
Definition padded_taps (firdes : Z -> Z -> list f32) (fine C taps : Z) : list f32 := firdes (taps * C) C ++ map (fun _ => f32_of_Z 0) (zrange (C * fine - taps * C)).
(** Numbers of magnitude at most 2^40. *)
Definition tame (c : f32 * f32) : Prop := is_finite (fst c) = true /\ is_finite (snd c) = true /\ (Rabs (B2R (fst c)) <= bpow radix2 40)%R /\ (Rabs (B2R (snd c)) <= bpow radix2 40)%R.
(** What the generator can take: an even width, a span below 2^31 with its centre in place, a float of room behind the spectrum (C81), spectra of tame numbers. *)
Definition generable (rfft : list f32 -> list (f32 * f32)) firdes (lowest : f32) (slack fine C taps : Z) : Prop :=
  half_length rfft /\ (forall n c, 0 <= n -> zlen (firdes n c) = n) /\ is_finite lowest = true /\ (B2R lowest <= 0)%R /\ 1 <= slack /\ 0 < fine /\ fine mod 2 = 0 /\ 2 <= C <= 2 ^ 24 /\ 0 <= taps <= fine /\
  C * fine < 2 ^ 31 /\ dc_index (C * fine) = C * fine / 2 /\ Forall tame (rfft (padded_taps firdes fine C taps)).

Lemma nth_error_eq {V} : forall l m : list V, (forall n, nth_error l n = nth_error m n) -> l = m.
Proof. induction l as [|x l IH]; intros [|y m] H; [reflexivity|specialize (H 0%nat); discriminate|specialize (H 0%nat); discriminate|]. f_equal; [specialize (H 0%nat); now injection H|apply IH; intros n; exact (H (S n))]. Qed.
Lemma forall2_length {A B} (P : A -> B -> Prop) xs ys : Forall2 P xs ys -> length xs = length ys.
Proof. induction 1; cbn [length]; congruence. Qed.
(** ** Facts about single precision *)
Section Floats.
  Local Open Scope R_scope.
  Notation rnd := KurtProofs.rnd.
  Lemma add_ok (a b : f32) : is_finite a = true -> is_finite b = true -> Rabs (B2R a + B2R b) <= bpow radix2 127 ->
    is_finite (Bplus mode_NE a b) = true /\ B2R (Bplus mode_NE a b) = rnd (B2R a + B2R b).
  Proof. exact (KurtProofs.plus_ok a b). Qed.
  Lemma mul_ok (a b : f32) : is_finite a = true -> is_finite b = true -> Rabs (B2R a * B2R b) <= bpow radix2 127 ->
    is_finite (Bmult mode_NE a b) = true /\ B2R (Bmult mode_NE a b) = rnd (B2R a * B2R b).
  Proof. exact (KurtProofs.mult_ok a b). Qed.
  Lemma ratio_ok (a b : f32) : is_finite a = true -> B2R b <> 0 -> Rabs (B2R a / B2R b) <= bpow radix2 127 ->
    is_finite (Bdiv mode_NE a b) = true /\ B2R (Bdiv mode_NE a b) = rnd (B2R a / B2R b).
  Proof. exact (KurtProofs.div_ok a b). Qed.
  Lemma rnd_mono x y : x <= y -> rnd x <= rnd y.
  Proof. intros H. unfold KurtProofs.rnd. apply round_le; [apply FLT_exp_valid; reflexivity|apply valid_rnd_N|exact H]. Qed.
  Lemma rnd_id x : generic_format radix2 (FLT_exp (-149) 24) x -> rnd x = x.
  Proof. intros H. unfold KurtProofs.rnd. apply round_generic; [apply valid_rnd_N|exact H]. Qed.
  Lemma rnd_zero : rnd 0 = 0. Proof. apply rnd_id, generic_format_0. Qed.
  Lemma multiple_format k e : (0 <= k <= 2 ^ 24)%Z -> (-149 <= e)%Z -> generic_format radix2 (FLT_exp (-149) 24) (IZR k * bpow radix2 e).
  Proof.
    intros Hk He. destruct (Z.eq_dec k (2 ^ 24)) as [-> |Hn].
    - change (IZR (2 ^ 24)) with (bpow radix2 24). rewrite <- bpow_plus. apply generic_format_bpow. unfold FLT_exp. lia.
    - apply generic_format_FLT. exists (Float radix2 k e); [reflexivity|cbn; rewrite Z.abs_eq by lia; change (Z.pow_pos 2 24) with (2 ^ 24)%Z; lia|exact He].
  Qed.
  Lemma one_format : generic_format radix2 (FLT_exp (-149) 24) 1.
  Proof. change 1 with (bpow radix2 0). apply generic_format_bpow. unfold FLT_exp. lia. Qed.
  Lemma B2R_format (x : f32) : generic_format radix2 (FLT_exp (-149) 24) (B2R x).
  Proof. exact (generic_format_B2R 24 128 x). Qed.
  Lemma gt_f32_spec (x y : f32) : is_finite x = true -> is_finite y = true -> gt_f32 x y = true <-> B2R y < B2R x.
  Proof. intros Fx Fy. unfold gt_f32, lt32. rewrite Bcompare_correct by assumption. destruct (Rcompare_spec (B2R y) (B2R x)); split; intros K; try reflexivity; try discriminate; lra. Qed.
  Definition energy : f32 * f32 -> f32 := mag2 (Bplus mode_NE) (Bmult mode_NE).
  Lemma energy_ok c : tame c -> is_finite (energy c) = true /\ 0 <= B2R (energy c) <= bpow radix2 81.
  Proof.
    destruct c as (re, im). intros (F1 & F2 & B1 & B2). cbn [fst snd] in *. assert (Sq : forall x : f32, is_finite x = true -> Rabs (B2R x) <= bpow radix2 40 -> is_finite (Bmult mode_NE x x) = true /\ 0 <= B2R (Bmult mode_NE x x) <= bpow radix2 80).
    { intros x F B. assert (P : 0 <= B2R x * B2R x <= bpow radix2 80). { split; [nra|]. replace (bpow radix2 80) with (bpow radix2 40 * bpow radix2 40) by (rewrite <- bpow_plus; reflexivity). apply Rabs_le_inv in B. pose proof (bpow_gt_0 radix2 40). nra. }
      destruct (mul_ok x x F F) as (G & V); [rewrite Rabs_pos_eq by apply P; apply Rle_trans with (bpow radix2 80); [apply P|apply bpow_le; lia]|]. split; [exact G|]. rewrite V. split; [rewrite <- rnd_zero; apply rnd_mono, P|].
      rewrite <- (rnd_id (bpow radix2 80)) by (apply generic_format_bpow; unfold FLT_exp; lia). apply rnd_mono, P. }
    destruct (Sq _ F1 B1) as (G1 & P1). destruct (Sq _ F2 B2) as (G2 & P2). unfold energy, mag2. cbn [fst snd]. assert (E81 : bpow radix2 81 = 2 * bpow radix2 80) by (change 2 with (bpow radix2 1); rewrite <- bpow_plus; reflexivity).
    destruct (add_ok _ _ G1 G2) as (G & V); [rewrite Rabs_pos_eq by lra; apply Rle_trans with (bpow radix2 81); [lra|apply bpow_le; lia]|]. split; [exact G|]. rewrite V. split; [rewrite <- rnd_zero; apply rnd_mono; lra|].
    rewrite <- (rnd_id (bpow radix2 81)) by (apply generic_format_bpow; unfold FLT_exp; lia). apply rnd_mono. lra.
  Qed.
  Lemma sum_ok xs : Forall (fun x : f32 => is_finite x = true /\ 0 <= B2R x <= bpow radix2 81) xs -> forall k s, (0 <= k)%Z -> (k + Z.of_nat (length xs) <= 2 ^ 24)%Z -> is_finite s = true -> 0 <= B2R s <= IZR k * bpow radix2 81 ->
    is_finite (fold_left (Bplus mode_NE) xs s) = true /\ 0 <= B2R (fold_left (Bplus mode_NE) xs s).
  Proof.
    induction 1 as [|x xs (Fx & Px) _ IH]; intros k s Hk Hl Fs Ps; cbn [fold_left]; [tauto|]. cbn [length] in Hl. assert (T : 0 <= B2R s + B2R x <= IZR (k + 1) * bpow radix2 81) by (rewrite plus_IZR; lra).
    assert (Kb : IZR (k + 1) * bpow radix2 81 <= bpow radix2 105). { replace (bpow radix2 105) with (IZR (2 ^ 24) * bpow radix2 81) by (change (IZR (2 ^ 24)) with (bpow radix2 24); rewrite <- bpow_plus; reflexivity). apply Rmult_le_compat_r; [apply bpow_ge_0|]. apply IZR_le. lia. }
    destruct (add_ok s x Fs Fx) as (G & V); [rewrite Rabs_pos_eq by lra; apply Rle_trans with (bpow radix2 105); [lra|apply bpow_le; lia]|].
    apply (IH (k + 1)%Z); [lia|lia|exact G|]. rewrite V. split; [rewrite <- rnd_zero; apply rnd_mono; lra|]. rewrite <- (rnd_id (IZR (k + 1) * bpow radix2 81)) by (apply multiple_format; lia). apply rnd_mono. lra.
  Qed.
  Definition larger (s x : f32) : f32 := if gt_f32 x s then x else s.
  Lemma largest_ok xs : Forall (fun x : f32 => is_finite x = true) xs -> forall s, is_finite s = true ->
    let r := fold_left larger xs s in is_finite r = true /\ B2R s <= B2R r /\ (forall x, In x xs -> B2R x <= B2R r) /\ (r = s \/ In r xs).
  Proof.
    induction 1 as [|x xs Fx _ IH]; intros s Fs; cbn [fold_left]; [cbv zeta; split; [exact Fs|]; split; [lra|]; split; [intros x []|now left]|].
    assert (G : is_finite (larger s x) = true /\ B2R s <= B2R (larger s x) /\ B2R x <= B2R (larger s x) /\ (larger s x = s \/ larger s x = x)).
    { unfold larger. pose proof (gt_f32_spec x s Fx Fs) as C. destruct (gt_f32 x s); [pose proof (proj1 C eq_refl); repeat split; auto; lra|]. repeat split; auto; [lra|]. apply Rnot_lt_le. intros L. apply C in L. discriminate. }
    destruct G as (G1 & G2 & G3 & G4). destruct (IH (larger s x) G1) as (F & L & U & A). cbv zeta. split; [exact F|]. split; [lra|]. split; [intros y [-> |Hy]; [lra|now apply U]|].
    destruct A as [A|A]; [|right; now right]. destruct G4 as [G4|G4]; [left; congruence|right; left; congruence].
  Qed.
  Lemma quotient_ok (s m : f32) : is_finite s = true -> is_finite m = true -> 0 <= B2R s <= B2R m -> 0 < B2R m -> is_finite (Bdiv mode_NE s m) = true /\ 0 <= B2R (Bdiv mode_NE s m) <= 1.
  Proof.
    intros Fs Fm Hs Hm. assert (Q : 0 <= B2R s / B2R m <= 1). { split; [apply Rmult_le_pos; [lra|]; apply Rlt_le, Rinv_0_lt_compat, Hm|]. apply Rmult_le_reg_r with (B2R m); [exact Hm|]. unfold Rdiv. rewrite Rmult_assoc, Rinv_l by lra. lra. }
    destruct (ratio_ok s m Fs ltac:(lra)) as (G & V); [rewrite Rabs_pos_eq by apply Q; apply Rle_trans with (bpow radix2 0); [apply Q|apply bpow_le; lia]|]. split; [exact G|]. rewrite V. split; [rewrite <- rnd_zero; apply rnd_mono, Q|rewrite <- (rnd_id 1 one_format); apply rnd_mono, Q].
  Qed.
  Lemma quotient_one (s m : f32) : is_finite s = true -> B2R s = B2R m -> 0 < B2R m -> B2R (Bdiv mode_NE s m) = 1.
  Proof.
    intros Fs E Hm. assert (Q : B2R s / B2R m = 1) by (rewrite E; field; lra). destruct (ratio_ok s m Fs ltac:(lra)) as (G & V); [rewrite Q, Rabs_pos_eq by lra; apply (bpow_le radix2 0 127); lia|]. rewrite V, Q. apply rnd_id, one_format.
  Qed.
  Lemma zero_by_zero (s m : f32) : is_finite s = true -> B2R s = 0 -> is_finite m = true -> B2R m = 0 -> is_nan (Bdiv mode_NE s m) = true.
  Proof.
    intros Fs Es Fm Em. assert (Zr : forall x : f32, is_finite x = true -> B2R x = 0 -> exists b, x = B754_zero b).
    { intros x F E. destruct x as [b|b| |b p e H]; try discriminate F; [eauto|]. exfalso. cbn in E. apply (eq_0_F2R radix2) in E. destruct b; discriminate. }
    destruct (Zr s Fs Es) as (b1 & ->). destruct (Zr m Fm Em) as (b2 & ->). reflexivity.
  Qed.
End Floats.

(** ** The response *)
(** C110: in single precision, too, the response is numbers from 0 to 1 with 1 somewhere, whatever the rounding of the transform - or nowhere a number. *)
Theorem C110_response_range : forall rfft firdes lowest slack junk fine C taps, generable rfft firdes lowest slack fine C taps ->
  exists out v, response32 rfft firdes lowest slack junk fine C taps = Ok (dense [fine], out) /\ zlen out = fine /\ (forall f, 0 <= f < fine -> znth out f = Some (v f)) /\
    (blank fine v \/ normalised fine v).
Proof.
  intros rfft firdes lowest slack junk fine C taps (Hr & Hh & Fl & Hl & Hs & Hf & H2 & HC & Ht & HN & Hdc & Tm). assert (Hn : 0 <= taps * C <= C * fine) by nia.
  unfold response32, gen_response, int_mul. replace ((- 2 ^ 31 <=? taps * C) && (taps * C <? 2 ^ 31)) with true by lia. cbn [obind].
  replace (taps * C <? 0) with false by lia. replace ((- 2 ^ 31 <=? C * fine) && (C * fine <? 2 ^ 31)) with true by lia. cbn [obind].
  replace (C * fine <=? 0) with false by lia. rewrite slice_of_dense by lia. cbn [obind]. rewrite Z.sub_0_r.
  destruct (pad_ok (f32_of_Z 0) (C * fine) (taps * C) (firdes (taps * C) C)) as (p & -> & Lp & Vp); [lia|lia|apply Hh; lia|]. cbn [obind].
  assert (Ep : p = padded_taps firdes fine C taps).
  { specialize (Hh (taps * C) C ltac:(lia)). unfold padded_taps. set (h := firdes (taps * C) C) in *. clearbody h. assert (Lz : zlen (map (fun _ : Z => f32_of_Z 0) (zrange (C * fine - taps * C))) = C * fine - taps * C) by (apply zlen_zeros; lia).
    apply nth_error_eq. intros i. destruct (Z_lt_le_dec (Z.of_nat i) (C * fine)) as [Hi|Hi].
    - specialize (Vp (Z.of_nat i) ltac:(lia)). unfold znth in Vp. replace (Z.of_nat i <? 0) with false in Vp by lia. rewrite Nat2Z.id in Vp. rewrite Vp. destruct (Z.of_nat i <? taps * C) eqn:Ei.
      + symmetry. apply nth_error_app1. unfold zlen in Hh. lia.
      + rewrite nth_error_app2 by (unfold zlen in Hh; lia). pose proof (znth_zeros (f32_of_Z 0) (C * fine - taps * C) (Z.of_nat (i - length h)) ltac:(unfold zlen in Hh; lia)) as Zn. unfold znth in Zn. replace (Z.of_nat (i - length h) <? 0) with false in Zn by lia. rewrite Nat2Z.id in Zn. now rewrite Zn.
    - rewrite (proj2 (nth_error_None p i)) by (unfold zlen in Lp; lia). symmetry. apply nth_error_None. rewrite app_length. unfold zlen in *. lia. }
  destruct (C81_cpu_shift f32 (Bplus mode_NE) (Bmult mode_NE) rfft slack junk (dense [C * fine]) p (C * fine)) as (sp & -> & Lsp & Vs); auto; [lia|lia|lia|]. cbn [obind fst snd].
  assert (Fs : forall j, 0 <= j < C * fine -> exists x, znth sp j = Some x /\ is_finite x = true /\ (0 <= B2R x <= bpow radix2 81)%R).
  { intros j Hj. specialize (Vs j Hj). rewrite firstn_all2 in Vs by (unfold zlen in Lp; lia). destruct (znth_there (rfft p) (Z.abs (j - C * fine / 2))) as (c & Ec); [rewrite Hr, Lp, half_odd by lia; nia|]. rewrite Ec in Vs. cbn [option_map] in Vs. exists (energy c). split; [exact Vs|]. apply energy_ok.
    rewrite Ep in Ec. rewrite Forall_forall in Tm. apply Tm. unfold znth in Ec. destruct (Z.abs (j - C * fine / 2) <? 0); [discriminate|]. now apply nth_error_In in Ec. }
  pose proof (fold_view (C * fine) fine C Hf H2 ltac:(lia) eq_refl HN) as FV.
  destruct (slice1 (dense [C * fine]) 0 (Z.quot fine 2) (C * fine - Z.quot fine 2) 1) as [ls| |]; [|discriminate FV|discriminate FV]. cbn [obind] in *. rewrite FV.
  cbn [obind]. set (lv := Layout [C - 1; fine] [fine; 1] [0; fine / 2]).
  assert (Cv : forall k f, cell lv [k; f] = fine / 2 + k * fine + f) by (intros; unfold cell, lv; cbn; lia).
  assert (Rh : red_hyps sp lv [0]).
  { split; [split; reflexivity|]. split; [repeat constructor; cbn; lia|]. split; [split; [repeat constructor; intros []|repeat constructor; cbn; lia]|].
    split; [change (out_shape [0] (l_shape lv)) with [fine]; rewrite zprod_cons, zprod_nil; nia|].
    intros idx Hi. apply in_range_2 in Hi as (k & f & -> & Hk & Hf'). rewrite Cv. nia. }
  destruct (C09_sum f32 (f32_of_Z 0) (Bplus mode_NE) junk lv sp [0] Rh) as (su & -> & Lsu & Vsu). cbn [obind fst snd]. change (out_shape [0] (l_shape lv)) with [fine] in *.
  destruct (f32_of_Z_ok 0 ltac:(lia)) as (V0 & F0).
  assert (Es : forall f, 0 <= f < fine -> exists s, elt su (dense [fine]) [f] = Some s /\ is_finite s = true /\ (0 <= B2R s)%R).
  { intros f Hf'. destruct (Vsu [f] ltac:(repeat constructor; lia)) as (es & xs & He & Rd & E). exists (fold_left (Bplus mode_NE) xs (f32_of_Z 0)). split; [exact E|].
    assert (Le : Z.of_nat (length xs) = C - 1).
    { assert (P : Permutation.Permutation es (map (fun i => [i; f]) (zrange (C - 1)))). { destruct He as (N1 & I1). destruct (column_enum (C - 1) fine f Hf') as (N2 & I2). apply Permutation.NoDup_Permutation; auto. intros idx. rewrite I1, I2. tauto. }
      apply Permutation.Permutation_length in P. rewrite map_length in P. pose proof (zrange_length (C - 1)) as K. unfold zlen in K. apply forall2_length in Rd. lia. }
    apply (sum_ok xs) with (k := 0); [|lia|lia|exact F0|rewrite V0; lra].
    destruct He as (_ & He). assert (Hin : forall idx, In idx es -> in_range [C - 1; fine] idx) by (intros idx Hi; apply He in Hi; tauto). clear He E Le. induction Rd as [|idx x es' xs' Ex Rd IH]; constructor.
    - specialize (Hin idx ltac:(now left)). apply in_range_2 in Hin as (k & g & -> & Hk & Hg). unfold elt in Ex. rewrite Cv in Ex. destruct (Fs (fine / 2 + k * fine + g) ltac:(nia)) as (y & Ey & Fy). rewrite Ey in Ex. injection Ex as <-. exact Fy.
    - apply IH. intros; apply Hin; now right. }
  assert (Zp : zprod [fine] = fine) by (change (zprod [fine]) with (fine * 1); lia). rewrite Zp in Lsu.
  assert (Ra : red_hyps su (dense [fine]) []).
  { split; [apply dense_wf|]. split; [repeat constructor; cbn; lia|]. split; [split; constructor|]. split; [reflexivity|].
    intros idx Hi. apply in_range_1 in Hi as (f & -> & Hf'). replace (cell (dense [fine]) [f]) with f by (unfold cell; cbn; lia). lia. }
  change (nd_max lowest gt_f32 junk (dense [fine]) su []) with (nd_sum lowest larger junk (dense [fine]) su []).
  destruct (C09_sum f32 lowest larger junk (dense [fine]) su [] Ra) as (mx & -> & Lmx & Vmx). cbn [obind fst snd]. change (out_shape [] (l_shape (dense [fine]))) with [1] in *.
  destruct (Vmx [0]) as (es & xs & (_ & He) & Rd & EM); [repeat constructor; lia|]. change (l_shape (dense [fine])) with [fine] in He. set (M := fold_left larger xs lowest) in *.
  assert (Hin : forall idx, In idx es -> in_range [fine] idx) by (intros idx Hi; apply He in Hi; tauto).
  assert (Fx : Forall (fun x : f32 => is_finite x = true) xs).
  { clear He EM M. induction Rd as [|idx x es' xs' Ex Rd IH]; constructor; [|apply IH; intros; apply Hin; now right]. specialize (Hin idx ltac:(now left)). apply in_range_1 in Hin as (f & -> & Hf'). destruct (Es f Hf') as (s & E & F & _). rewrite E in Ex. now injection Ex as <-. }
  destruct (largest_ok xs Fx lowest Fl) as (FM & _ & UM & AM). cbv zeta in *. fold M in FM, UM, AM.
  assert (Rd1 : forall f s, 0 <= f < fine -> elt su (dense [fine]) [f] = Some s -> In s xs).
  { intros f s Hf' E. assert (Hi : In [f] es) by (apply He; split; [repeat constructor; lia|reflexivity]). clear - Rd Hi E. induction Rd as [|idx x es' xs' Ex Rd IH]; [destruct Hi|]. destruct Hi as [-> |Hi]; [left; congruence|right; auto]. }
  assert (Rd2 : forall s, In s xs -> exists f, 0 <= f < fine /\ elt su (dense [fine]) [f] = Some s).
  { intros s Hi. clear - Rd Hi Hin. induction Rd as [|idx x es' xs' Ex Rd IH]; [destruct Hi|]. destruct Hi as [-> |Hi]; [|apply IH; [intros; apply Hin; now right|exact Hi]]. specialize (Hin idx ltac:(now left)). apply in_range_1 in Hin as (f & -> & Hf'). eauto. }
  set (sf := fun f => match elt su (dense [fine]) [f] with Some s => s | None => f32_of_Z 0 end).
  assert (Sf : forall f, 0 <= f < fine -> elt su (dense [fine]) [f] = Some (sf f) /\ is_finite (sf f) = true /\ (0 <= B2R (sf f) <= B2R M)%R).
  { intros f Hf'. destruct (Es f Hf') as (s & E & F & P). unfold sf. rewrite E. split; [reflexivity|]. split; [exact F|]. split; [exact P|]. apply UM. now apply (Rd1 f). }
  destruct (expand_is (Bdiv mode_NE) junk (dense [fine], su) (dense [1], mx) [fine] [1] [fine] (fun i => sf (hd 0 i)) (fun _ => M)) as (r & Er & Fr & Lr & Ir).
  - apply arr_is_dense; [rewrite Zp; exact Lsu|]. intros idx Hi. apply in_range_1 in Hi as (f & -> & Hf'). now apply Sf.
  - apply arr_is_dense; [exact Lmx|]. intros idx Hi. apply in_range_1 in Hi as (f & -> & Hf'). replace f with 0 by lia. exact EM.
  - repeat constructor; lia.
  - repeat constructor; lia.
  - apply expand_one. lia.
  - discriminate.
  - rewrite Zp. nia.
  - left. reflexivity.
  - left. reflexivity.
  - cbn [fst snd] in *. destruct r as (lr & out). cbn [fst snd] in *. subst lr. exists out, (fun f => Bdiv mode_NE (sf f) M). split; [exact Er|]. split; [exact (eq_trans Lr Zp)|]. split.
    { intros f Hf'. destruct Ir as (_ & _ & _ & Ir). specialize (Ir [f] ltac:(repeat constructor; lia)). unfold elt in Ir. cbn [fst snd] in Ir. replace (cell (dense [fine]) [f]) with f in Ir by (unfold cell; cbn; lia). replace (bidx [fine] [f]) with [f] in Ir; [exact Ir|]. unfold bidx. cbn -[Z.eqb]. replace (fine =? 1) with false by (assert (fine <> 1) by (intros ->; discriminate H2); lia). reflexivity. }
    destruct (Rle_lt_dec (B2R M) 0) as [Z0|P0].
    + left. intros f Hf'. destruct (Sf f Hf') as (_ & F & P). apply zero_by_zero; auto; lra.
    + right. split; [intros f Hf'; destruct (Sf f Hf') as (_ & F & P); apply quotient_ok; auto|].
      destruct AM as [AM|AM]; [rewrite AM in P0; lra|]. destruct (Rd2 M AM) as (f & Hf' & E). exists f. split; [exact Hf'|]. destruct (Sf f Hf') as (E' & F & _). pose proof (eq_trans (eq_sym E') E) as EE. injection EE as EE. apply quotient_one; [exact F|now rewrite EE|exact P0].
Qed.
Print Assumptions C110_response_range.

(** ** Equalizing with the file *)
(** A float is stored in four bytes and read back. *)
Definition stores (enc : f32 -> list Z) (dec : list Z -> f32) : Prop := forall x, zlen (enc x) = 4 /\ dec (enc x) = x.
(** What dividing does to a sample: unchanged by a response of 1, not lowered by a positive one, not a finite number for 0. *)
Definition raised (x v r : f32) : Prop :=
  is_finite x = true -> (0 <= B2R x)%R ->
  (B2R v = 1%R -> is_finite r = true /\ B2R r = B2R x) /\
  ((0 < B2R v)%R -> is_nan r = false /\ (is_finite r = true -> (B2R x <= B2R r)%R)) /\
  (B2R v = 0%R -> is_finite r = false).
Lemma divided (x v : f32) : is_finite v = true -> (0 <= B2R v <= 1)%R -> raised x v (Bdiv mode_NE x v).
Proof.
  intros Fv Hv Fx Hx. assert (P : (0 < B2R v)%R -> is_nan (Bdiv mode_NE x v) = false /\ (is_finite (Bdiv mode_NE x v) = true -> (B2R x <= B2R (Bdiv mode_NE x v))%R) /\ (B2R v = 1%R -> is_finite (Bdiv mode_NE x v) = true /\ B2R (Bdiv mode_NE x v) = B2R x)).
  { intros Pv. assert (Q : (B2R x <= B2R x / B2R v)%R). { apply Rmult_le_reg_r with (B2R v); [exact Pv|]. unfold Rdiv. rewrite Rmult_assoc, Rinv_l by lra. nra. }
    pose proof (Bdiv_correct 24 128 prec24 emax128 mode_NE x v ltac:(lra)) as C. change (round_mode mode_NE) with ZnearestE in C.
    set (q := Bdiv mode_NE x v) in *. change (Bdiv mode_NE x v) with q in C. clearbody q. set (rq := round radix2 (SpecFloat.fexp 24 128) ZnearestE (B2R x / B2R v)) in *.
    assert (Rq : (B2R x <= rq)%R) by (apply (Rle_trans _ (KurtProofs.rnd (B2R x))); [rewrite (rnd_id _ (B2R_format x)); lra|exact (rnd_mono _ _ Q)]).
    assert (R1 : B2R v = 1%R -> rq = B2R x) by (intros E; unfold rq; replace (B2R x / B2R v)%R with (B2R x) by (rewrite E; field); exact (rnd_id _ (B2R_format x))).
    clearbody rq. destruct (Rlt_bool_spec (Rabs rq) (bpow radix2 128)) as [L|L].
    - destruct C as (C1 & C2 & _). rewrite Fx in C2. split; [clear - C2; destruct q; try reflexivity; discriminate|]. split; [intros _; rewrite C1; exact Rq|intros E; split; [exact C2|rewrite C1; exact (R1 E)]].
    - assert (E1 : B2R v <> 1%R). { intros E. rewrite (R1 E) in L. pose proof (abs_B2R_lt_emax 24 128 x). lra. }
      assert (I : is_nan q = false /\ is_finite q = false). { clear - C. destruct q as [b|b| |b m e H]; cbn in C; destruct (xorb _ _); cbn in C; try discriminate C; split; reflexivity. }
      split; [apply I|]. split; [intros K; destruct I as (_ & I); congruence|intros; contradiction]. }
  split; [intros E; destruct (P ltac:(lra)) as (_ & _ & P'); exact (P' E)|]. split; [intros Pv; destruct (P Pv) as (A & B & _); auto|].
  intros E. clear P. destruct v as [b|b| |b m e H]; try discriminate Fv; [destruct x as [b'|b'| |b' m' e' H']; try discriminate Fx; reflexivity|]. exfalso. cbn in E. apply (eq_0_F2R radix2) in E. destruct b; discriminate.
Qed.
Lemma elements_dense1 {V} (m : mem V) n : zlen m = n -> elements m (dense [n]) = map Some m.
Proof.
  intros L. rewrite elements_cells. change (l_shape (dense [n])) with [n]. rewrite dense_cells by (constructor; [unfold zlen in L; lia|constructor]). change (zprod [n]) with (n * 1). rewrite Z.mul_1_r.
  apply nth_error_eq. intros i. rewrite !nth_error_map. destruct (Z_lt_le_dec (Z.of_nat i) n) as [Hi|Hi].
  - pose proof (nth_error_zrange n (Z.of_nat i) ltac:(lia)) as E. rewrite Nat2Z.id in E. rewrite E. cbn [option_map]. unfold znth. replace (Z.of_nat i <? 0) with false by lia. rewrite Nat2Z.id.
    destruct (nth_error m i) as [x|] eqn:Em; [reflexivity|]. apply nth_error_None in Em. unfold zlen in L. lia.
  - rewrite (proj2 (nth_error_None (zrange n) i)) by (pose proof (zrange_length n) as K; unfold zlen in *; lia). rewrite (proj2 (nth_error_None m i)) by (unfold zlen in *; lia). reflexivity.
Qed.
Lemma some_inj {V} : forall xs ys : list V, map Some xs = map Some ys -> xs = ys.
Proof. induction xs as [|x xs IH]; intros [|y ys] H; try discriminate; [reflexivity|]. injection H as -> H. f_equal. auto. Qed.

(** C110: the program's file, read by equalization, divides the samples of bin c by the c-th value of the response: where that is positive no power is lowered. *)
Theorem C110_equalize_by_file : forall rfft firdes lowest enc dec slack junk o, generable rfft firdes lowest slack (ro_fine o) (ro_coarse o) (ro_taps o) -> stores enc dec ->
  exists bytes v, response_program rfft firdes lowest enc slack junk o = Ok (ro_out o, bytes) /\ zlen bytes = 4 * ro_fine o /\ (blank (ro_fine o) v \/ normalised (ro_fine o) v) /\
    exists h, equalize_call dec bytes = Ok h /\ arr_is h [ro_fine o] (fun i => v (hd 0 i)) /\
      forall junk' data T f, arr_is data [T; ro_fine o] f -> 1 <= T -> ro_fine o <> T -> T * ro_fine o < 2 ^ 31 ->
        exists r q, equalized_data junk' data h = Ok r /\ arr_is r [T; ro_fine o] q /\
          forall t c, 0 <= t < T -> 0 <= c < ro_fine o -> q [t; c] = Bdiv mode_NE (f [t; c]) (v c) /\ (normalised (ro_fine o) v -> raised (f [t; c]) (v c) (q [t; c])) /\ (blank (ro_fine o) v -> is_nan (q [t; c]) = true).
Proof.
  intros rfft firdes lowest enc dec slack junk o G St. destruct (C110_response_range _ _ _ _ junk _ _ _ G) as (out & v & E & L & V & N). destruct G as (_ & _ & _ & _ & _ & Hf & H2 & HC & _ & HN & _).
  set (fine := ro_fine o) in *. assert (H1 : fine <> 1) by (intros K; rewrite K in H2; discriminate). assert (Hb : fine < 2 ^ 31) by nia. assert (Zp : zprod [fine] = fine) by (change (zprod [fine]) with (fine * 1); lia).
  destruct (C60_write_to_file f32 out (dense [fine])) as (vs & Ew & Ev); [apply dense_wf|repeat constructor; cbn; lia|change (l_shape (dense [fine])) with [fine]; lia| |].
  { intros idx Hi. apply in_range_1 in Hi as (f & -> & Hf'). replace (cell (dense [fine]) [f]) with f by (unfold cell; cbn; lia). lia. }
  rewrite elements_dense1 in Ev by exact L. apply some_inj in Ev. subst vs. exists (concat (map enc out)), v.
  split; [unfold response_program; fold fine; rewrite E; cbn [obind fst snd]; rewrite Ew; reflexivity|]. split.
  { rewrite <- L. clear - St. induction out as [|x out IH]; [reflexivity|]. cbn [map concat]. unfold zlen in *. rewrite app_length. destruct (St x) as (Lx & _). unfold zlen in Lx. cbn [length]. lia. }
  split; [exact N|]. assert (Md : map dec (map enc out) = out) by (rewrite map_map; rewrite <- (map_id out) at 2; apply map_ext; intros x; apply St).
  assert (Ah : arr_is (dense [fine], out) [fine] (fun i => v (hd 0 i))).
  { apply arr_is_dense; [rewrite Zp; exact L|]. intros idx Hi. apply in_range_1 in Hi as (f & -> & Hf'). unfold elt. replace (cell (dense [fine]) [f]) with f by (unfold cell; cbn; lia). now apply V. }
  exists (dense [fine], out). split.
  { unfold equalize_call. rewrite (C60_read_back 4 (map enc out)) by (try lia; rewrite Forall_forall; intros e He; apply in_map_iff in He as (x & <- & _); apply St). cbn [obind]. unfold zlen. rewrite map_length, Md. change (Z.of_nat (length out)) with (zlen out). now rewrite L. }
  split; [exact Ah|]. intros junk' data T f Ad HT Hne Hp.
  destruct (C69_equalize f32 ops32 junk' data (dense [fine], out) T fine f (fun i => v (hd 0 i)) Ad Ah HT ltac:(lia) Hp) as (K & _). destruct (K H1 Hne) as (r & q & Er & Ar & Q). exists r, q. split; [exact Er|]. split; [exact Ar|].
  intros t c Ht Hc. pose proof (Q t c Ht Hc) as Qt. cbn [hd] in Qt. change (o_div ops32 (f [t; c]) (v c)) with (Bdiv mode_NE (f [t; c]) (v c)) in Qt. split; [exact Qt|]. rewrite Qt. split.
  - intros (Nn & _). destruct (Nn c Hc) as (F & B). now apply divided.
  - intros Bk. specialize (Bk c Hc). destruct (v c); try discriminate Bk. destruct (f [t; c]); reflexivity.
Qed.
Print Assumptions C110_equalize_by_file.

(** C110: a file of another number of bins is not refused by the call but when the data are read; one of a single bin makes that undefined; a file that ends inside a float makes the call undefined. *)
Theorem C110_wrong_size : forall dec junk data T C f (es : list (list Z)), arr_is data [T; C] f -> 1 <= T -> 1 < C -> Forall (fun e => zlen e = 4) es -> zlen es <> C ->
  exists h, equalize_call dec (concat es) = Ok h /\ equalized_data junk data h = (if zlen es =? 1 then UB else Throw InvalidArgument).
Proof.
  intros dec junk data T C f es (W & S1 & I & E) HT HC He Hn. exists (dense [zlen es], map dec es). split; [unfold equalize_call; rewrite C60_read_back by (try lia; exact He); reflexivity|].
  unfold equalized_data, equalize, expand_op. cbn [fst snd]. rewrite S1. change (l_shape (dense [zlen es])) with [zlen es]. set (n := zlen es) in *. unfold expand_shapes. change (Nat.max _ _) with 2%nat. change (pad1 (rev [T; C]) 2) with [C; T]. change (pad1 (rev [n]) 2) with [n; 1]. cbn [expand_loop]. replace (C =? n) with false by lia. replace (C =? 1) with false by lia. cbn [negb andb].
  destruct (n =? 1) eqn:En; cbn [negb]; [|reflexivity]. change (1 =? 1) with true. cbn [negb andb]. rewrite andb_false_r. cbn [obind rev app]. replace n with 1 by lia. rewrite Z.max_l by lia. rewrite Z.max_l by lia.
  unfold binary_op, ndim. rewrite S1. change (l_shape (dense [T; C])) with [T; C]. change (l_shape (dense [1])) with [1]. change (zlen [T; C] =? zlen [1]) with false. cbn [andb]. unfold bcast_strides. change (List.length [T; C] <=? List.length [T; C])%nat with true.
  change (List.length [1] <=? List.length [T; C])%nat with true. cbv iota. cbn [obind]. rewrite bcast_self. cbn [obind]. cbn [bcast_shape]. replace ((1 =? T) || (1 =? 1)) with true by lia. reflexivity.
Qed.
Print Assumptions C110_wrong_size.
Theorem C110_truncated_refuted : forall dec bytes, zlen bytes mod 4 <> 0 -> equalize_call dec bytes = UB.
Proof. intros dec bytes H. unfold equalize_call. now rewrite C60_truncated_file_refuted by (try lia; exact H). Qed.
Print Assumptions C110_truncated_refuted.

(** *** Concrete cases *)
(** [std::numeric_limits<float>::lowest()] is -(2^24 - 1) 2^104. *)
Definition flt_lowest : f32 := @B754_finite 24 128 true 16777215 104 eq_refl.
Definition ramp_rfft (xs : list f32) : list (f32 * f32) := map (fun k => (f32_of_Z (Z.min k 5), f32_of_Z 0)) (zrange (zlen xs / 2 + 1)).
Definition unit_taps (n c : Z) : list f32 := map (fun _ => f32_of_Z 1) (zrange n).
(** Four numbers that hold a float. *)
Definition enc4 (x : f32) : list Z := match B2SF x with SpecFloat.S754_zero s => [0; Z.b2z s; 0; 0] | SpecFloat.S754_infinity s => [1; Z.b2z s; 0; 0] | SpecFloat.S754_nan => [2; 0; 0; 0] | SpecFloat.S754_finite s m e => [3; Z.b2z s; Zpos m; e] end.
Definition of_sf (x : SpecFloat.spec_float) : f32 := match Bool.bool_dec (SpecFloat.valid_binary 24 128 x) true with left H => SF2B x H | right _ => B754_nan end.
Definition dec4 (l : list Z) : f32 :=
  of_sf (match l with
         | [k; s; m; e] => if k =? 0 then SpecFloat.S754_zero (s =? 1) else if k =? 1 then SpecFloat.S754_infinity (s =? 1) else if k =? 2 then SpecFloat.S754_nan else SpecFloat.S754_finite (s =? 1) (Z.to_pos m) e
         | _ => SpecFloat.S754_nan
         end).
Lemma stores4 : stores enc4 dec4.
Proof.
  intros x. split; [unfold enc4; destruct (B2SF x); reflexivity|]. transitivity (of_sf (B2SF x)); [|unfold of_sf; destruct (Bool.bool_dec _ true) as [H|H]; [apply SF2B_B2SF|elim H; apply valid_binary_B2SF] ]. unfold enc4, dec4. destruct (B2SF x) as [[]|[]| |[] m e]; reflexivity.
Qed.
Lemma tame_small z : Z.abs z <= 100 -> tame (f32_of_Z z, f32_of_Z 0).
Proof.
  intros H. destruct (f32_of_Z_ok z ltac:(lia)) as (V & F). destruct (f32_of_Z_ok 0 ltac:(lia)) as (V0 & F0). unfold tame. cbn [fst snd]. rewrite V, V0. split; [exact F|]. split; [exact F0|].
  assert (B : (100 <= bpow radix2 40)%R) by (change (bpow radix2 40) with (IZR (2 ^ 40)); apply IZR_le; lia). split; [rewrite <- abs_IZR; apply Rle_trans with 100%R; [apply IZR_le; lia|exact B]|rewrite Rabs_R0; lra].
Qed.
Lemma ramp_generable slack fine C taps : 1 <= slack -> 0 < fine -> fine mod 2 = 0 -> 2 <= C <= 2 ^ 24 -> 0 <= taps <= fine -> C * fine < 2 ^ 31 -> dc_index (C * fine) = C * fine / 2 -> generable ramp_rfft unit_taps flt_lowest slack fine C taps.
Proof.
  intros Hs Hf H2 HC Ht HN Hd. unfold generable. split; [intros xs; unfold half_bins, ramp_rfft, zlen; rewrite Z.quot_div_nonneg by lia; rewrite map_length; pose proof (zrange_length (Z.of_nat (length xs) / 2 + 1)) as K; unfold zlen in K; assert (0 <= Z.of_nat (length xs) / 2) by (apply Z.div_pos; lia); lia|].
  split; [intros n c Hn; now apply zlen_zeros|]. split; [reflexivity|]. split.
  { assert (E : B2SF flt_lowest = SpecFloat.S754_finite true 16777215 104) by reflexivity. rewrite <- SF2R_B2SF, E. cbn [SF2R]. apply F2R_le_0. cbn. lia. }
  repeat (split; [assumption|]). rewrite Forall_forall. intros c Hc. unfold ramp_rfft in Hc. apply in_map_iff in Hc as (k & <- & Hk). apply in_zrange in Hk. apply tame_small. lia.
Qed.
(* Three channels of four bins: 1, 5/8, 1/2, 5/8. *)
Example C110_case : generable ramp_rfft unit_taps flt_lowest 1 4 3 2 /\ stores enc4 dec4 /\
  match response32 ramp_rfft unit_taps flt_lowest 1 (fun _ => f32_of_Z 7) 4 3 2 with Ok (_, m) => map B2SF m | _ => [] end =
  [SpecFloat.S754_finite false 8388608 (-23); SpecFloat.S754_finite false 10485760 (-24); SpecFloat.S754_finite false 8388608 (-24); SpecFloat.S754_finite false 10485760 (-24)].
Proof. split; [apply ramp_generable; try lia; vm_compute; reflexivity|]. split; [exact stores4|]. vm_compute. reflexivity. Qed.
(* The default options: 256 channels of 2^20 bins. *)
Example C110_defaults_case : generable ramp_rfft unit_taps flt_lowest 1 (ro_fine resp_defaults) (ro_coarse resp_defaults) (ro_taps resp_defaults).
Proof. unfold resp_defaults. cbn [ro_fine ro_coarse ro_taps]. apply ramp_generable; try lia; vm_compute; reflexivity. Qed.
Example C110_wrong_size_case : exists h, equalize_call dec4 (concat (map enc4 [f32_of_Z 1; f32_of_Z 2])) = Ok h /\ equalized_data (fun _ => f32_of_Z 7) (dense [2; 3], map f32_of_Z [1; 2; 3; 4; 5; 6]) h = Throw InvalidArgument.
Proof. eexists. split; [reflexivity|]. reflexivity. Qed.
Example C110_truncated_case : zlen [1; 2; 3; 4; 5] mod 4 <> 0.
Proof. discriminate. Qed.
