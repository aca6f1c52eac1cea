(** C88: what coarse channels hand out, for all programs of copies, settings, moves between devices and reads. *)
From Verif Require Import ChanModel BaseFacts PropDev.
From Coq Require Import Lia.
Local Open Scope nat_scope.

(** ** What every channel means after a program: a setting holds for the channel it was made on and for the copies made later. *)
Inductive psrc A I := PNow (s : src A) (fl : list A) (x : I) | PLater (g : nat).
Arguments PNow {A I}. Arguments PLater {A I}.
Inductive hsrc H := HNow (h : H) | HLater (g : nat).
Arguments HNow {H}. Arguments HLater {H}.
(** Hits carry the position of the call that set them. *)
Record meaning A N I H := Meaning { m_data : option (src A); m_mask : option (src A); m_noise : option N; m_plane : option (psrc A I); m_hits : option (nat * hsrc H); m_dev : dev }.
Arguments Meaning {A N I H}. Arguments m_data {A N I H}. Arguments m_mask {A N I H}. Arguments m_noise {A N I H}. Arguments m_plane {A N I H}. Arguments m_hits {A N I H}. Arguments m_dev {A N I H}.

Section Spec.
  Context {A N I H C : Type}.
  Variables (move : A -> dev -> outcome A) (gen : nat -> nat -> outcome A) (pgen : nat -> nat -> outcome (A * list A * I)) (hgen : nat -> nat -> outcome H) (valid : Z -> bool).
  (** The elements of an array, and the device it is on. *)
  Variables (content : A -> C) (on : A -> dev).
  (** The arrays and devices that a program uses. *)
  Variables (good : A -> Prop) (fine : dev -> Prop).

  Definition refused (d : dev) : bool := on_gpu (d_type d) && negb (valid (d_id d)).
  Definition mstep (t : nat) (ms : list (meaning A N I H)) (o : cop A N I H) : list (meaning A N I H) :=
    match o with
    | New => ms ++ [Meaning None None None None None (Dev Cpu 0)]
    | CopyC i => match nth_error ms i with Some m => ms ++ [m] | None => ms end
    | AssignC i j => match nth_error ms j with Some m => upd ms i (fun _ => m) | None => ms end
    | SetF Data i x => upd ms i (fun m => Meaning (Some x) (m_mask m) (m_noise m) (m_plane m) (m_hits m) (m_dev m))
    | SetF Mask i x => upd ms i (fun m => Meaning (m_data m) (Some x) (m_noise m) (m_plane m) (m_hits m) (m_dev m))
    | SetNoise i n => upd ms i (fun m => Meaning (m_data m) (m_mask m) (Some n) (m_plane m) (m_hits m) (m_dev m))
    | SetPlane i x fl info => upd ms i (fun m => Meaning (m_data m) (m_mask m) (m_noise m) (Some (PNow x fl info)) (m_hits m) (m_dev m))
    | SetPlaneGen i g => upd ms i (fun m => Meaning (m_data m) (m_mask m) (m_noise m) (Some (PLater g)) (m_hits m) (m_dev m))
    | SetHits i h => upd ms i (fun m => Meaning (m_data m) (m_mask m) (m_noise m) (m_plane m) (Some (t, HNow h)) (m_dev m))
    | SetHitsGen i g => upd ms i (fun m => Meaning (m_data m) (m_mask m) (m_noise m) (m_plane m) (Some (t, HLater g)) (m_dev m))
    | SetDev i d => if refused d then ms else upd ms i (fun m => Meaning (m_data m) (m_mask m) (m_noise m) (m_plane m) (m_hits m) d)
    | Push _ | GetF _ _ | GetNoise _ | GetPlane _ | GetHits _ | HasHits _ => ms
    end.
  Fixpoint meanings (t : nat) (ms : list (meaning A N I H)) (ops : list (cop A N I H)) : list (meaning A N I H) :=
    match ops with [] => ms | o :: r => meanings (S t) (mstep t ms o) r end.

  (** What reading an array must give on device [d]: the elements that were set, on that device, unless an exception comes from moving them. *)
  Definition arrives (a : A) (d : dev) (y : outcome A) : Prop :=
    (exists b, y = Ok b /\ content b = content a /\ on b = d) \/
    (exists e b, y = Throw e /\ good b /\ content b = content a /\ move b d = Throw e).
  (** ... or those of a run of the callable, or its exception. *)
  Definition delivers (s : src A) (d : dev) (y : outcome A) : Prop :=
    match s with
    | Arr a => arrives a d y
    | Gen g => exists k, match gen g k with Ok a => arrives a d y | Throw e => y = Throw e | UB => False end
    end.
  Definition delivers_plane (s : src A) (fl : list A) (info : I) (d : dev) (x : outcome (obs A N I H)) : Prop :=
    exists y, delivers s d y /\
      match y with
      | Ok a => (exists fl', x = Ok (OPlane a fl' info) /\ Forall2 (fun b c => content b = content c /\ on b = d) fl' fl) \/
                (exists e b c, x = Throw e /\ In c fl /\ good b /\ content b = content c /\ move b d = Throw e)
      | Throw e => x = Throw e
      | UB => False
      end.
  Definition answer (ms : list (meaning A N I H)) (o : cop A N I H) (x : outcome (obs A N I H)) : Prop :=
    let for_ i (P : meaning A N I H -> Prop) := match nth_error ms i with Some m => P m | None => x = UB end in
    match o with
    | New => x = Ok ODone
    | AssignC i j => for_ i (fun _ => for_ j (fun _ => x = Ok ODone))
    | CopyC i | SetF _ i _ | SetNoise i _ | SetPlane i _ _ _ | SetPlaneGen i _ | SetHits i _ | SetHitsGen i _ => for_ i (fun _ => x = Ok ODone)
    | SetDev i d => for_ i (fun _ => x = if refused d then Throw RuntimeError else Ok ODone)
    | Push i => for_ i (fun m => match m_mask m, m_data m with
        | None, _ => x = UB
        | Some _, None => x = UB \/ exists e b, x = Throw e /\ good b /\ move b (m_dev m) = Throw e
        | Some _, Some _ => x = Ok ODone \/ exists e b, x = Throw e /\ good b /\ move b (m_dev m) = Throw e
        end)
    | GetF f i => for_ i (fun m => match (match f with Data => m_data m | Mask => m_mask m end) with
        | None => x = UB
        | Some s => exists y, delivers s (m_dev m) y /\ x = let! a := y in Ok (OArr a)
        end)
    | GetNoise i => for_ i (fun m => x = match m_noise m with Some n => Ok (ONoise n) | None => Throw LogicError end)
    | GetPlane i => for_ i (fun m => match m_plane m with
        | None => x = Throw RuntimeError
        | Some (PNow s fl info) => delivers_plane s fl info (m_dev m) x
        | Some (PLater g) => exists k, match pgen g k with Ok (a, fl, info) => delivers_plane (Arr a) fl info (m_dev m) x | Throw e => x = Throw e | UB => False end
        end)
    | GetHits i => for_ i (fun m => match m_hits m with
        | None => x = Throw LogicError
        | Some (_, HNow h) => x = Ok (OHits h)
        | Some (_, HLater g) => exists k, x = let! h := hgen g k in Ok (OHits h)
        end)
    | HasHits i => for_ i (fun m => x = Ok (OBool (match m_hits m with Some _ => true | None => false end)))
    end.

  (** ** The invariant *)
  Hypothesis move_ok : forall a d, good a -> fine d -> match move a d with Ok b => content b = content a /\ on b = d /\ good b | Throw _ => True | UB => False end.
  Hypothesis gen_ok : forall g k, match gen g k with Ok a => good a | Throw _ => True | UB => False end.
  Hypothesis pgen_ok : forall g k, match pgen g k with Ok (a, fl, _) => good a /\ Forall good fl | Throw _ => True | UB => False end.
  Hypothesis fine_start : fine (Dev Cpu 0).
  Definition good_src (s : src A) : Prop := match s with Arr a => good a | Gen _ => True end.
  (** Programs that use only such arrays and devices. *)
  Definition good_op (o : cop A N I H) : Prop :=
    match o with
    | SetF _ _ s => good_src s
    | SetPlane _ s fl _ => good_src s /\ Forall good fl
    | SetDev _ d => refused d = true \/ fine d
    | _ => True
    end.

  Definition hdl_ok (cs : list (cell A)) (h : hdl) (so : option (src A)) : Prop :=
    match so with
    | None => h_ptr h = None
    | Some (Arr a) => exists p b, h_ptr h = Some p /\ nth_error cs p = Some (Held b) /\ content b = content a /\ good b /\ h_memo h = true
    | Some (Gen g) => exists p, h_ptr h = Some p /\ nth_error cs p = Some (Call g) /\ h_memo h = false
    end.
  Definition ext (cs cs' : list (cell A)) : Prop := forall h so, hdl_ok cs h so -> hdl_ok cs' h so.
  Lemma ext_refl cs : ext cs cs. Proof. intros h so Hh. exact Hh. Qed.
  Lemma ext_trans a b c : ext a b -> ext b c -> ext a c. Proof. intros X Y h so Hh. apply Y, X, Hh. Qed.
  Lemma nth_app_l {B} (l m : list B) p v : nth_error l p = Some v -> nth_error (l ++ m) p = Some v.
  Proof. intros E. rewrite nth_error_app1; [exact E|]. apply nth_error_Some. congruence. Qed.
  Lemma nth_last {B} (l : list B) v : nth_error (l ++ [v]) (length l) = Some v.
  Proof. rewrite nth_error_app2 by lia. now rewrite Nat.sub_diag. Qed.
  Lemma ext_app cs l : ext cs (cs ++ l).
  Proof.
    intros h [[a|g]|]; cbn; [intros (p & b & E & V & R); exists p, b; auto using nth_app_l|intros (p & E & V & R); exists p; auto using nth_app_l|auto].
  Qed.
  Lemma ext_upd cs p a b : nth_error cs p = Some (Held a) -> content b = content a -> good b -> ext cs (upd cs p (fun _ => Held b)).
  Proof.
    intros E V Gb h [[a'|g]|]; cbn; [|intros (q & Eq & Vq & R); exists q|auto].
    - intros (q & b' & Eq & Vq & Cq & Gq & R). destruct (Nat.eq_dec q p) as [->|n].
      + exists p, b. rewrite (nth_error_upd_same _ _ _ _ E). repeat split; auto. congruence.
      + exists q, b'. rewrite nth_error_upd_other by auto. auto.
    - destruct (Nat.eq_dec q p) as [->|n]; [congruence|]. rewrite nth_error_upd_other by auto. auto.
  Qed.

  Lemma def_to_ok cs h d cs' h' x : fine d -> def_to move cs h d = (cs', h', x) -> ext cs cs' /\ h_dev h' = Some d /\
    forall so, hdl_ok cs h so -> hdl_ok cs' h' so /\
      match so with
      | None => x = UB
      | Some (Gen _) => x = Ok tt
      | Some (Arr a) => x = Ok tt \/ exists e b, x = Throw e /\ good b /\ content b = content a /\ move b d = Throw e
      end.
  Proof.
    intros Fd. unfold def_to. destruct (h_ptr h) as [p|] eqn:Ep.
    2:{ intros [= <- <- <-]. split; [apply ext_refl|]. split; [reflexivity|]. intros [[a|g]|]; cbn; rewrite ?Ep; [intros (? & ? & ? & _); discriminate|intros (? & ? & _); discriminate|]. auto. }
    destruct (nth_error cs p) as [[a|g]|] eqn:Ev.
    - destruct (move a d) as [b|e|] eqn:Em; intros [= <- <- <-].
      + split; [apply ext_app|]. split; [reflexivity|]. intros [[a'|g]|]; cbn; rewrite ?Ep.
        * intros (p' & b' & [= <-] & V & R & G & M). rewrite Ev in V. injection V as <-. split; [|auto]. pose proof (move_ok a d G Fd) as Mo. rewrite Em in Mo. destruct Mo as (Cb & Db & Gb).
          exists (length cs), b. rewrite nth_last. repeat split; auto. congruence.
        * intros (p' & [= <-] & V & _). congruence.
        * discriminate.
      + split; [apply ext_refl|]. split; [reflexivity|]. intros [[a'|g]|]; cbn; rewrite ?Ep.
        * intros (p' & b' & [= <-] & V & R & G & M). rewrite Ev in V. injection V as <-. split; [exists p, a; auto|]. right. eauto 6.
        * intros (p' & [= <-] & V & _). congruence.
        * discriminate.
      + split; [apply ext_refl|]. split; [reflexivity|]. intros [[a'|g]|]; cbn; rewrite ?Ep.
        * intros (p' & b' & [= <-] & V & R & G & M). rewrite Ev in V. injection V as <-. pose proof (move_ok a d G Fd) as Mo. rewrite Em in Mo. contradiction.
        * intros (p' & [= <-] & V & _). congruence.
        * discriminate.
    - intros [= <- <- <-]. split; [apply ext_refl|]. split; [reflexivity|]. intros [[a'|g']|]; cbn; rewrite ?Ep.
      * intros (p' & b' & [= <-] & V & _). congruence.
      * intros (p' & [= <-] & V & R). eauto 6.
      * discriminate.
    - intros [= <- <- <-]. split; [apply ext_refl|]. split; [reflexivity|]. intros [[a'|g']|]; cbn; rewrite ?Ep.
      * intros (p' & b' & [= <-] & V & _). congruence.
      * intros (p' & [= <-] & V & R). congruence.
      * discriminate.
  Qed.
  Lemma move_arrives a b d : good b -> content b = content a -> fine d -> arrives a d (move b d).
  Proof.
    intros G E Fd. pose proof (move_ok b d G Fd) as Mo. destruct (move b d) as [b'|e|] eqn:Em; [left|right|contradiction].
    - exists b'. destruct Mo as (M1 & M2 & M3). repeat split; congruence.
    - exists e, b. auto.
  Qed.
  Lemma def_read_ok cs runs h d s cs' runs' y : fine d -> def_read move gen cs runs h = (cs', runs', y) -> h_dev h = Some d -> hdl_ok cs h (Some s) ->
    ext cs cs' /\ delivers s d y.
  Proof.
    unfold def_read. intros Fd E Hd Hh. destruct s as [a|g]; cbn in Hh.
    - destruct Hh as (p & b & Ep & Ev & Cb & G & M). rewrite Ep, Ev, Hd, M in E. cbn [obind] in E. pose proof (move_arrives a b d G Cb Fd) as Ar. pose proof (move_ok b d G Fd) as Mo.
      destruct (move b d) as [b'|e|] eqn:Em; injection E as <- <- <-; [|split; [apply ext_refl|exact Ar]|contradiction].
      split; [|exact Ar]. destruct Mo as (M1 & _ & M3). eapply ext_upd; eauto.
    - destruct Hh as (p & Ep & Ev & M). rewrite Ep, Ev, Hd, M in E. set (k := times runs g) in *.
      assert (cs' = cs /\ y = let! a := gen g k in move a d) as (-> & ->) by (destruct (let! a := gen g k in move a d); injection E as <- <- <-; auto).
      split; [apply ext_refl|]. exists k. pose proof (gen_ok g k) as Go. destruct (gen g k) as [a|e|] eqn:Eg; cbn [obind]; [|reflexivity|contradiction]. now apply move_arrives.
  Qed.
  Lemma defer_ok cs s cs' h : good_src s -> defer cs s = (cs', h) -> ext cs cs' /\ hdl_ok cs' h (Some s).
  Proof.
    intros G. destruct s as [a|g]; cbn; intros [= <- <-]; (split; [apply ext_app|]).
    - exists (length cs), a. rewrite nth_last. auto.
    - exists (length cs). rewrite nth_last. auto.
  Qed.
  Lemma move_all_ok l d l' x : fine d -> Forall good l -> move_all move l d = (l', x) -> map content l' = map content l /\ Forall good l' /\
    (x = Ok tt /\ Forall2 (fun b c => content b = content c /\ on b = d) l' l \/ exists e b, x = Throw e /\ In b l /\ move b d = Throw e).
  Proof.
    intros Fd Gl. revert l' x. induction Gl as [|a l Ga Gl IH]; intros l' x; cbn [move_all]; [intros [= <- <-]; split; [reflexivity|]; split; [constructor|]; left; auto|].
    pose proof (move_ok a d Ga Fd) as Mo.
    destruct (move a d) as [b|e|] eqn:Em; [|intros [= <- <-]; split; [reflexivity|]; split; [now constructor|]; right; exists e, a; cbn; auto|contradiction].
    destruct (move_all move l d) as (r & y). intros [= <- <-]. destruct Mo as (Cb & Db & Gb). destruct (IH _ _ eq_refl) as (M & Gr & D). split; [cbn; congruence|]. split; [now constructor|].
    destruct D as [(-> & F)|(e & c & -> & Hc & Ec)]; [left; auto|right]. exists e, c. cbn. auto.
  Qed.

  Definition plane_ok (s : cstate (A := A) (N := N) (I := I) (H := H)) (q : nat) (ps : psrc A I) : Prop :=
    match ps with
    | PNow x fl info => exists p, nth_error (s_planes s) q = Some (PVal p) /\ hdl_ok (s_cells s) (p_drifts p) (Some x) /\ map content (p_flags p) = map content fl /\ Forall good (p_flags p) /\ p_info p = info
    | PLater g => nth_error (s_planes s) q = Some (PGen g)
    end.
  Definition hits_ok (s : cstate (A := A) (N := N) (I := I) (H := H)) (q : nat) (hs : hsrc H) : Prop :=
    match hs with
    | HNow h => nth_error (s_hits s) q = Some (HVal h)
    | HLater g => nth_error (s_hits s) q = Some (HGen g) \/ exists h k, nth_error (s_hits s) q = Some (HVal h) /\ hgen g k = Ok h
    end.
  (** [ts]: when the hit cells were made. *)
  Definition chan_ok (ts : list nat) (s : cstate) (c : chan N) (m : meaning A N I H) : Prop :=
    hdl_ok (s_cells s) (c_data c) (m_data m) /\ hdl_ok (s_cells s) (c_mask c) (m_mask m) /\ c_noise c = m_noise m /\ (c_dev c = m_dev m /\ fine (m_dev m)) /\
    match m_plane m with None => c_plane c = None | Some ps => exists q, c_plane c = Some q /\ plane_ok s q ps end /\
    match m_hits m with None => c_hits c = None | Some (t, hs) => exists q, c_hits c = Some q /\ hits_ok s q hs /\ nth_error ts q = Some t end.
  Record inv (t : nat) (ts : list nat) (s : cstate) (ms : list (meaning A N I H)) : Prop := {
    inv_chans : Forall2 (chan_ok ts s) (s_chans s) ms;
    inv_len : length ts = length (s_hits s);
    inv_old : Forall (fun u => u < t) ts;
    inv_nodup : NoDup ts }.
  (** What holds before a step holds after it, for handles that are not touched. *)
  Definition keeps (s s' : cstate) : Prop :=
    ext (s_cells s) (s_cells s') /\ (forall q ps, plane_ok s q ps -> plane_ok s' q ps) /\ (forall q hs, hits_ok s q hs -> hits_ok s' q hs).
  Lemma keeps_chan ts l s s' c m : keeps s s' -> chan_ok ts s c m -> chan_ok (ts ++ l) s' c m.
  Proof.
    intros (K1 & K2 & K3) (D & M & No & De & Pl & Hi). split; [auto|split; [auto|split; [auto|split; [exact De|split]]]].
    - destruct (m_plane m); [|exact Pl]. destruct Pl as (q & E & P). eauto.
    - destruct (m_hits m) as [(u & hs)|]; [|exact Hi]. destruct Hi as (q & E & P & T). exists q. auto using nth_app_l.
  Qed.
  Lemma keeps_trans a b c : keeps a b -> keeps b c -> keeps a c.
  Proof. intros (X & Y & Z) (X' & Y' & Z'). split; [eapply ext_trans; eauto|]. auto. Qed.
  Lemma keeps_cells s cs r : ext (s_cells s) cs -> keeps s (with_cells s cs r).
  Proof.
    intros X. split; [exact X|]. split; [|auto]. intros q [x fl info|g]; [|auto]. intros (p & E & Hh & R). exists p. split; [exact E|]. split; [|exact R]. apply X, Hh.
  Qed.
  (** Replacing a plane by one with the same contents. *)
  Lemma keeps_plane s cs r q p p' : nth_error (s_planes s) q = Some (PVal p) -> ext (s_cells s) cs -> (forall so, hdl_ok (s_cells s) (p_drifts p) so -> hdl_ok cs (p_drifts p') so) ->
    map content (p_flags p') = map content (p_flags p) -> (Forall good (p_flags p) -> Forall good (p_flags p')) -> p_info p' = p_info p -> keeps s (with_plane (with_cells s cs r) q (PVal p')).
  Proof.
    intros E X Hh Fl Gf In_. split; [exact X|]. split; [|auto]. intros q' [x fl info|g].
    - intros (p0 & E0 & H0 & F0 & G0 & I0). unfold plane_ok. cbn [s_planes with_plane with_cells s_cells]. destruct (Nat.eq_dec q' q) as [->|n].
      + rewrite E in E0. injection E0 as <-. exists p'. rewrite (nth_error_upd_same _ _ _ _ E). split; [reflexivity|]. split; [auto|]. split; [congruence|]. split; [auto|congruence].
      + exists p0. rewrite nth_error_upd_other by auto. split; [exact E0|]. split; [apply X, H0|]. auto.
    - unfold plane_ok. cbn [s_planes with_plane with_cells]. intros E0. destruct (Nat.eq_dec q' q) as [->|n]; [congruence|]. now rewrite nth_error_upd_other by auto.
  Qed.
  Lemma F2_nth {X Y} (R : X -> Y -> Prop) l l' i : Forall2 R l l' -> match nth_error l i, nth_error l' i with Some x, Some y => R x y | None, None => True | _, _ => False end.
  Proof. intros F. revert i. induction F; intros [|i]; cbn; auto. apply IHF. Qed.
  Lemma F2_impl {X Y} (R R' : X -> Y -> Prop) l l' : (forall a b, R a b -> R' a b) -> Forall2 R l l' -> Forall2 R' l l'.
  Proof. intros Im F. induction F; constructor; auto. Qed.
  Lemma F2_upd {X Y} (R R' : X -> Y -> Prop) l l' i x y x' f : Forall2 R l l' -> (forall a b, R a b -> R' a b) -> nth_error l i = Some x -> nth_error l' i = Some y -> R' x' (f y) ->
    Forall2 R' (upd l i (fun _ => x')) (upd l' i f).
  Proof.
    intros F Im. revert i. induction F as [|a b l l' Hab F IH]; intros [|i]; cbn; try discriminate.
    - intros [= ->] [= ->] Hx. constructor; [exact Hx|]. eapply F2_impl; eauto.
    - intros. constructor; auto.
  Qed.
  Lemma upd_id {X} (l : list X) i : upd l i (fun m => m) = l.
  Proof. revert i. induction l; intros [|i]; cbn; congruence. Qed.
  Lemma F2_set {X Y} (R R' : X -> Y -> Prop) l l' i x y x' : Forall2 R l l' -> (forall a b, R a b -> R' a b) -> nth_error l i = Some x -> nth_error l' i = Some y -> R' x' y ->
    Forall2 R' (upd l i (fun _ => x')) l'.
  Proof. intros F Im E E' Hx. rewrite <- (upd_id l' i). eapply F2_upd; eauto. Qed.

  Definition grows (s s' : cstate (A := A) (N := N) (I := I) (H := H)) : Prop := forall q h, nth_error (s_hits s) q = Some (HVal h) -> nth_error (s_hits s') q = Some (HVal h).
  Lemma inv_same t ts s s' ms ms' : inv t ts s ms -> s_hits s' = s_hits s -> Forall2 (chan_ok (ts ++ []) s') (s_chans s') ms' -> inv (S t) (ts ++ []) s' ms'.
  Proof.
    intros [I1 I2 I3 I4] E F. split; [exact F|rewrite app_nil_r, E; exact I2|rewrite app_nil_r|rewrite app_nil_r; exact I4]. eapply Forall_impl; [|exact I3]. cbn. lia.
  Qed.
  Lemma inv_new t ts s s' v ms : inv t ts s ms -> s_hits s' = s_hits s ++ [v] -> forall ms', Forall2 (chan_ok (ts ++ [t]) s') (s_chans s') ms' -> inv (S t) (ts ++ [t]) s' ms'.
  Proof.
    intros [I1 I2 I3 I4] E ms' F. split; [exact F|rewrite E, !app_length; cbn; lia| |].
    - apply Forall_app. split; [eapply Forall_impl; [|exact I3]; cbn; lia|]. constructor; [lia|constructor].
    - apply NoDup_rev in I4. rewrite <- (rev_involutive (ts ++ [t])). apply NoDup_rev. rewrite rev_app_distr. cbn. constructor; [|exact I4].
      intros Hin. apply in_rev in Hin. rewrite Forall_forall in I3. apply I3 in Hin. lia.
  Qed.

  Lemma get_field_ok ts f s i c m s' x : get_field move gen f s i c = (s', x) -> chan_ok ts s c m -> nth_error (s_chans s) i = Some c ->
    s_hits s' = s_hits s /\ keeps s s' /\ (exists c', s_chans s' = upd (s_chans s) i (fun _ => c') /\ (x <> UB -> chan_ok ts s' c' m)) /\
    match (match f with Data => m_data m | Mask => m_mask m end) with None => x = UB | Some so => delivers so (m_dev m) x end.
  Proof.
    unfold get_field. intros E Ok_ Hi. pose proof Ok_ as (D & M & No & (De & Fd) & Pl & Hh). assert (Fc : fine (c_dev c)) by (rewrite De; exact Fd).
    set (h := match f with Data => c_data c | Mask => c_mask c end) in *. remember (match f with Data => m_data m | Mask => m_mask m end) as so eqn:Eso.
    assert (Hso : hdl_ok (s_cells s) h so) by (subst so; destruct f; assumption).
    destruct (def_to move (s_cells s) h (c_dev c)) as ((cs & h') & y) eqn:Et. destruct (def_to_ok _ _ _ _ _ _ Fc Et) as (X & Hd & R). destruct (R _ Hso) as (Hh' & Ry).
    set (c' := match f with Data => _ | Mask => _ end) in E.
    assert (Ch : forall s2, keeps s s2 -> hdl_ok (s_cells s2) h' so -> chan_ok ts s2 c' m).
    { intros s2 K2 Hs2. destruct (keeps_chan ts [] s s2 c m K2 Ok_) as (D2 & M2 & _ & _ & P2 & H2). rewrite app_nil_r in H2.
      subst so c'. destruct f; (split; [auto|split; [auto|split; [auto|split; [split; [exact De|exact Fd]|split; auto]]]]). }
    set (s1 := with_chan (with_cells s cs (s_runs s)) i c') in E.
    assert (K1 : keeps s s1) by (destruct (keeps_cells s cs (s_runs s) X) as (k1 & k2 & k3); split; [exact k1|]; split; [exact k2|exact k3]).
    destruct y as [[]|e|].
    - destruct (def_read move gen (s_cells s1) (s_runs s1) h') as ((cs2 & r2) & y) eqn:Er. injection E as <- <-. destruct so as [so|]; [|discriminate].
      destruct (def_read_ok _ _ _ _ so _ _ _ Fc Er Hd Hh') as (X2 & Dl). split; [reflexivity|].
      assert (K2 : keeps s1 (with_cells s1 cs2 r2)) by now apply keeps_cells. split; [eapply keeps_trans; eauto|]. split; [|rewrite <- De; exact Dl].
      exists c'. split; [reflexivity|]. intros _. apply Ch; [eapply keeps_trans; eauto|]. apply X2, Hh'.
    - injection E as <- <-. split; [reflexivity|]. split; [exact K1|]. split; [exists c'; split; [reflexivity|]; intros _; now apply Ch|].
      destruct so as [[a|g]|]; [|discriminate..]. destruct Ry as [Ry|(e' & b & [= <-] & Gb & Cb & Mb)]; [discriminate|]. rewrite <- De. right. exists e, b. auto.
    - injection E as <- <-. split; [reflexivity|]. split; [exact K1|]. split; [exists c'; split; [reflexivity|]; congruence|].
      destruct so as [[a|g]|]; [|discriminate|reflexivity]. destruct Ry as [Ry|(e' & b & [=] & _)]; discriminate.
  Qed.
  Lemma read_plane_ok s p so fl info s' x : fine (p_dev p) -> Forall good (p_flags p) -> read_plane move gen s p = (s', x) -> hdl_ok (s_cells s) (p_drifts p) (Some so) -> map content (p_flags p) = map content fl -> p_info p = info ->
    s_hits s' = s_hits s /\ s_chans s' = s_chans s /\ keeps s s' /\ delivers_plane so fl info (p_dev p) x.
  Proof.
    intros Fc Gl. unfold read_plane. intros E Hh Hf Hn. destruct (def_to move (s_cells s) (p_drifts p) (p_dev p)) as ((cs & h) & y) eqn:Et. destruct (def_to_ok _ _ _ _ _ _ Fc Et) as (X & Hd & R). destruct (R _ Hh) as (Hh' & Ry).
    destruct y as [[]|e|].
    - destruct (def_read move gen cs (s_runs s) h) as ((cs2 & r2) & y) eqn:Er. destruct (def_read_ok _ _ _ _ so _ _ _ Fc Er Hd Hh') as (X2 & Dl).
      assert (s' = with_cells s cs2 r2 /\ x = let! a := y in let (fl, z) := move_all move (p_flags p) (p_dev p) in let! _ := z in Ok (OPlane a fl (p_info p))) as (-> & ->) by (split; congruence).
      split; [reflexivity|]. split; [reflexivity|]. split; [apply keeps_cells; eapply ext_trans; eauto|]. exists y. split; [exact Dl|].
      destruct y as [a|e|]; cbn [obind]; [|reflexivity|].
      2:{ destruct so as [a|g]; cbn in Dl; [destruct Dl as [(? & [=] & _)|(? & ? & [=] & _)]|]. destruct Dl as (k & Dl). destruct (gen g k); [destruct Dl as [(? & [=] & _)|(? & ? & [=] & _)]|discriminate|contradiction]. }
      destruct (move_all move (p_flags p) (p_dev p)) as (fl' & z) eqn:Em. destruct (move_all_ok _ _ _ _ Fc Gl Em) as (Mc & Gf & [(-> & F)|(e & b & -> & Hb & Eb)]); cbn [obind].
      + left. exists fl'. split; [now subst|]. clear - F Hf. revert fl Hf. induction F as [|u v l l' (Hu & Hu') F IH]; intros [|w fl]; cbn; try discriminate; [constructor|]. intros [= E1 E2]. constructor; [split; congruence|auto].
      + right. exists e, b. assert (Gb : good b) by (rewrite Forall_forall in Gl; auto). apply (in_map content) in Hb. rewrite Hf in Hb. apply in_map_iff in Hb as (w & Ew & Hw). exists w. auto.
    - injection E as <- <-. split; [reflexivity|]. split; [reflexivity|]. split; [now apply keeps_cells|]. exists (Throw e). split; [|reflexivity].
      destruct so as [a|g]; [|discriminate]. destruct Ry as [Ry|(e' & b & [= <-] & Gb & Cb & Mb)]; [discriminate|]. right. exists e, b. auto.
    - destruct so as [a|g]; [|discriminate]. destruct Ry as [Ry|(e' & b & [=] & _)]; discriminate.
  Qed.
  Lemma push_plane_ok cs (p : plane A I) cs' p' x : fine (p_dev p) -> Forall good (p_flags p) -> push_plane move cs p = (cs', p', x) ->
    ext cs cs' /\ map content (p_flags p') = map content (p_flags p) /\ Forall good (p_flags p') /\ p_info p' = p_info p /\
    (forall so, hdl_ok cs (p_drifts p) so -> hdl_ok cs' (p_drifts p') so) /\
    (forall so, hdl_ok cs (p_drifts p) (Some so) -> x = Ok tt \/ exists e b, x = Throw e /\ good b /\ move b (p_dev p) = Throw e).
  Proof.
    intros Fc Gl. unfold push_plane. destruct (move_all move (p_flags p) (p_dev p)) as (fl & z) eqn:Em. destruct (move_all_ok _ _ _ _ Fc Gl Em) as (Mc & Gf & [(-> & F)|(e & b & -> & Hb & Eb)]).
    - destruct (def_to move cs (p_drifts p) (p_dev p)) as ((cs1 & h) & y) eqn:Et. destruct (def_to_ok _ _ _ _ _ _ Fc Et) as (X & Hd & R). intros [= <- <- <-]. cbn [p_flags p_info p_drifts].
      split; [exact X|]. split; [exact Mc|]. split; [exact Gf|]. split; [reflexivity|]. split; [intros so Hs; apply (R _ Hs)|].
      intros so Hs. destruct (R _ Hs) as (_ & Ry). destruct so; [|auto]. destruct Ry as [->|(e & b & -> & Gb & _ & Eb)]; eauto 6.
    - intros [= <- <- <-]. cbn. split; [apply ext_refl|]. repeat split; auto. intros so _. right. exists e, b. split; [reflexivity|]. split; [|exact Eb]. rewrite Forall_forall in Gl. auto.
  Qed.
  Lemma push_ok ts s i c m s' x : push move s i c = (s', x) -> chan_ok ts s c m -> nth_error (s_chans s) i = Some c ->
    s_hits s' = s_hits s /\ keeps s s' /\ (exists c', s_chans s' = upd (s_chans s) i (fun _ => c') /\ (x <> UB -> chan_ok ts s' c' m)) /\
    match m_mask m, m_data m with
    | None, _ => x = UB
    | Some _, None => x = UB \/ exists e b, x = Throw e /\ good b /\ move b (m_dev m) = Throw e
    | Some _, Some _ => x = Ok tt \/ exists e b, x = Throw e /\ good b /\ move b (m_dev m) = Throw e
    end.
  Proof.
    unfold push. intros E Ok_ Hi. pose proof Ok_ as (D & M & No & (De & Fd) & Pl & Hh). assert (Fc : fine (c_dev c)) by (rewrite De; exact Fd).
    destruct (def_to move (s_cells s) (c_mask c) (c_dev c)) as ((cs1 & hm) & x1) eqn:E1. destruct (def_to_ok _ _ _ _ _ _ Fc E1) as (X1 & _ & R1). destruct (R1 _ M) as (M1 & Ry1).
    set (c1 := Chan (c_data c) hm (c_noise c) (c_plane c) (c_hits c) (c_dev c)) in *. set (s1 := with_chan (with_cells s cs1 (s_runs s)) i c1) in *.
    assert (K1 : keeps s s1) by (destruct (keeps_cells s cs1 (s_runs s) X1) as (k1 & k2 & k3); split; [exact k1|]; split; [exact k2|exact k3]).
    assert (C1 : chan_ok ts s1 c1 m).
    { destruct (keeps_chan ts [] s s1 c m K1 Ok_) as (D2 & M2 & N2 & V2 & P2 & H2). rewrite app_nil_r in H2. split; [auto|split; [auto|split; [auto|split; [auto|split; auto]]]]. }
    destruct x1 as [[]|e|].
    2,3: assert (s' = s1) as -> by congruence; split; [reflexivity|]; split; [exact K1|]; split; [exists c1; split; [reflexivity|]; intros _; exact C1|].
    2:{ assert (x = Throw e) as -> by congruence. destruct (m_mask m) as [[a|g]|]; [|discriminate..]. destruct Ry1 as [Ry|(e' & b & [= <-] & Gb & Cb & Mb)]; [discriminate|]. rewrite <- De. destruct (m_data m); right; eauto. }
    2:{ assert (x = UB) as -> by congruence. destruct (m_mask m) as [[a|g]|]; [|discriminate|reflexivity]. destruct Ry1 as [Ry|(e' & b & [=] & _)]; discriminate. }
    destruct (m_mask m) as [sm|] eqn:Em; [|discriminate]. clear Ry1.
    destruct (def_to move (s_cells s1) (c_data c) (c_dev c)) as ((cs2 & hd) & x2) eqn:E2. destruct (def_to_ok _ _ _ _ _ _ Fc E2) as (X2 & _ & R2).
    destruct (R2 (m_data m) ltac:(apply X1, D)) as (M2 & Ry2).
    set (c2 := Chan hd hm (c_noise c) (c_plane c) (c_hits c) (c_dev c)) in *. set (s2 := with_chan (with_cells s1 cs2 (s_runs s1)) i c2) in *.
    assert (K2 : keeps s s2) by (eapply keeps_trans; [exact K1|]; destruct (keeps_cells s1 cs2 (s_runs s1) X2) as (k1 & k2 & k3); split; [exact k1|]; split; [exact k2|exact k3]).
    assert (C2 : chan_ok ts s2 c2 m).
    { destruct (keeps_chan ts [] s s2 c m K2 Ok_) as (D3 & M3 & N3 & V3 & P3 & H3). rewrite app_nil_r in H3. split; [auto|split; [rewrite Em; apply X2, M1|split; [auto|split; [auto|split; auto]]]]. }
    assert (U2 : s_chans s2 = upd (s_chans s) i (fun _ => c2)).
    { unfold s2, s1. cbn. clear. generalize (s_chans s). intros l. revert i. induction l; intros [|i]; cbn; congruence. }
    destruct x2 as [[]|e|].
    2,3: assert (s' = s2) as -> by congruence; split; [reflexivity|]; split; [exact K2|]; split; [exists c2; split; [exact U2|]; intros _; exact C2|].
    2:{ assert (x = Throw e) as -> by congruence. destruct (m_data m) as [[a|g]|]; [|discriminate..]. destruct Ry2 as [Ry|(e' & b & [= <-] & Gb & Cb & Mb)]; [discriminate|]. rewrite <- De. right; eauto. }
    2:{ assert (x = UB) as -> by congruence. destruct (m_data m) as [[a|g]|]; [|discriminate|auto]. destruct Ry2 as [Ry|(e' & b & [=] & _)]; discriminate. }
    destruct (m_data m) as [sd|] eqn:Ed; [|discriminate]. clear Ry2.
    destruct (m_plane m) as [ps|] eqn:Ep.
    2:{ rewrite Pl in E. assert (s' = s2 /\ x = Ok tt) as (-> & ->) by (split; congruence). split; [reflexivity|]. split; [exact K2|]. split; [|auto]. exists c2. split; [exact U2|]. intros _. exact C2. }
    destruct Pl as (q & Eq & Pq). rewrite Eq in E. pose proof (proj1 (proj2 K2) _ _ Pq) as Pq2.
    destruct ps as [so fl info|g]; cbn [plane_ok] in Pq2.
    2:{ rewrite Pq2 in E. assert (s' = s2 /\ x = Ok tt) as (-> & ->) by (split; congruence). split; [reflexivity|]. split; [exact K2|]. split; [|auto]. exists c2. split; [exact U2|]. intros _. exact C2. }
    destruct Pq2 as (p & Np & Hp & Fp & Gp & Ip). rewrite Np in E.
    destruct (push_plane move (s_cells s2) (Plane (p_drifts p) (p_flags p) (p_info p) (c_dev c))) as ((cs3 & p3) & x3) eqn:E3.
    destruct (push_plane_ok _ (Plane (p_drifts p) (p_flags p) (p_info p) (c_dev c)) _ _ _ Fc Gp E3) as (X3 & F3 & G3 & I3 & H3 & Y3). cbn in F3, I3, H3, Y3.
    assert (s' = with_plane (with_cells s2 cs3 (s_runs s2)) q (PVal p3) /\ x = x3) as (-> & ->) by (split; congruence).
    pose proof (keeps_plane s2 cs3 (s_runs s2) q p p3 Np X3 H3 F3 (fun _ => G3) I3) as K3. split; [reflexivity|]. split; [eapply keeps_trans; eauto|]. split.
    - exists c2. split; [exact U2|]. intros _. rewrite <- (app_nil_r ts). eapply keeps_chan; eauto.
    - rewrite <- De. destruct (Y3 _ Hp) as [->|Y]; auto.
  Qed.

  Lemma step_ok t ts s ms o s' x : good_op o -> inv t ts s ms -> cstep move gen pgen hgen valid s o = (s', x) ->
    answer ms o x /\ (x <> UB -> exists l, inv (S t) (ts ++ l) s' (mstep t ms o)) /\ grows s s'.
  Proof.
    intros Go V E. pose proof (inv_chans _ _ _ _ V) as F.
    assert (Nth : forall i, match nth_error (s_chans s) i, nth_error ms i with Some c, Some m => chan_ok ts s c m | None, None => True | _, _ => False end) by (intros; now apply F2_nth).
    assert (Gid : forall s1, s_hits s1 = s_hits s -> grows s s1) by (intros s1 E1 q h; rewrite E1; auto).
    assert (Kid : forall s1, s_cells s1 = s_cells s -> s_planes s1 = s_planes s -> s_hits s1 = s_hits s -> keeps s s1).
    { intros s1 E1 E2 E3. split; [rewrite E1; apply ext_refl|]. unfold plane_ok, hits_ok. rewrite E1, E2, E3. auto. }
    (* the cases that need a channel *)
    assert (On : forall i (k : chan N -> cstate * outcome (obs A N I H)) P, match nth_error (s_chans s) i with Some c => k c | None => (s, UB) end = (s', x) ->
      (forall c m, nth_error (s_chans s) i = Some c -> nth_error ms i = Some m -> chan_ok ts s c m -> k c = (s', x) -> P m /\ (x <> UB -> exists l, inv (S t) (ts ++ l) s' (mstep t ms o)) /\ grows s s') ->
      match nth_error ms i with Some m => P m | None => x = UB end /\ (x <> UB -> exists l, inv (S t) (ts ++ l) s' (mstep t ms o)) /\ grows s s').
    { intros i k P Ek HP. specialize (Nth i). destruct (nth_error (s_chans s) i) as [c|], (nth_error ms i) as [m|]; try contradiction; [eauto|]. injection Ek as <- <-.
      split; [reflexivity|]. split; [congruence|now apply Gid]. }
    assert (Set_ : forall i c m s1 c' fm, nth_error (s_chans s) i = Some c -> nth_error ms i = Some m -> s_chans s1 = upd (s_chans s) i (fun _ => c') -> s_hits s1 = s_hits s -> keeps s s1 ->
      chan_ok (ts ++ []) s1 c' (fm m) -> exists l, inv (S t) (ts ++ l) s1 (upd ms i fm)).
    { intros i c m s1 c' fm Ec Em E1 E2 K Hc. exists []. apply (inv_same t ts s _ ms); auto. rewrite E1. eapply F2_upd; eauto. intros. now apply keeps_chan with (s := s). }
    assert (Stay : forall i c m s1 c', nth_error (s_chans s) i = Some c -> nth_error ms i = Some m -> s_chans s1 = upd (s_chans s) i (fun _ => c') -> s_hits s1 = s_hits s -> keeps s s1 ->
      chan_ok (ts ++ []) s1 c' m -> exists l, inv (S t) (ts ++ l) s1 ms).
    { intros i c m s1 c' Ec Em E1 E2 K Hc. rewrite <- (upd_id ms i). eapply Set_; eauto. }
    assert (Same : forall s1, s_chans s1 = s_chans s -> s_hits s1 = s_hits s -> keeps s s1 -> exists l, inv (S t) (ts ++ l) s1 ms).
    { intros s1 E1 E2 K. exists []. apply (inv_same t ts s _ ms); auto. rewrite E1. eapply F2_impl; [|exact F]. intros. now apply keeps_chan with (s := s). }
    assert (NewHits : forall i c m v hs, nth_error (s_chans s) i = Some c -> nth_error ms i = Some m -> chan_ok ts s c m ->
      (forall s1 : cstate (A := A) (N := N) (I := I) (H := H), nth_error (s_hits s1) (length (s_hits s)) = Some v -> hits_ok s1 (length (s_hits s)) hs) ->
      let s1 := with_chan (CState (s_cells s) (s_planes s) (s_hits s ++ [v]) (s_chans s) (s_runs s) (s_pruns s) (s_hruns s)) i
        (Chan (c_data c) (c_mask c) (c_noise c) (c_plane c) (Some (length (s_hits s))) (c_dev c)) in
      (exists l, inv (S t) (ts ++ l) s1 (upd ms i (fun m => Meaning (m_data m) (m_mask m) (m_noise m) (m_plane m) (Some (t, hs)) (m_dev m)))) /\ grows s s1).
    { intros i c m v hs Ec Em Hc Hv s1.
      assert (K : keeps s s1).
      { split; [apply ext_refl|]. split; [auto|]. unfold hits_ok, s1. cbn. intros q [h|g]; [apply nth_app_l|]. intros [E1|(h & k & E1 & E2)]; [left|right; exists h, k; split; [|exact E2]]; now apply nth_app_l. }
      split; [|intros q h; cbn; apply nth_app_l]. exists [t]. eapply (inv_new t ts s s1 v ms); eauto. unfold s1. cbn [s_chans with_chan]. eapply F2_upd; eauto; [intros; now apply keeps_chan with (s := s)|].
      destruct (keeps_chan ts [t] s s1 c m K Hc) as (D & M & No & De & Pl & _). split; [auto|split; [auto|split; [auto|split; [auto|split; [auto|]]]]]. cbn. exists (length (s_hits s)). split; [reflexivity|].
      split; [apply Hv; unfold s1; cbn; apply nth_last|]. rewrite <- (inv_len _ _ _ _ V). apply nth_last. }
    assert (NewPlane : forall i c m cs v ps, nth_error (s_chans s) i = Some c -> nth_error ms i = Some m -> chan_ok ts s c m -> ext (s_cells s) cs ->
      (forall s1 : cstate (A := A) (N := N) (I := I) (H := H), s_cells s1 = cs -> nth_error (s_planes s1) (length (s_planes s)) = Some v -> plane_ok s1 (length (s_planes s)) ps) ->
      exists l, inv (S t) (ts ++ l) (with_chan (CState cs (s_planes s ++ [v]) (s_hits s) (s_chans s) (s_runs s) (s_pruns s) (s_hruns s)) i
        (Chan (c_data c) (c_mask c) (c_noise c) (Some (length (s_planes s))) (c_hits c) (c_dev c)))
        (upd ms i (fun m => Meaning (m_data m) (m_mask m) (m_noise m) (Some ps) (m_hits m) (m_dev m)))).
    { intros i c m cs v ps Ec Em Hc X Hv. set (s1 := with_chan _ _ _).
      assert (K : keeps s s1).
      { split; [exact X|]. split; [|auto]. unfold plane_ok, s1. cbn [s_planes s_cells with_chan]. intros q [x1 fl1 info1|g]; [|apply nth_app_l]. intros (p & E1 & E2 & E3). exists p. split; [now apply nth_app_l|]. split; [apply X, E2|exact E3]. }
      eapply (Set_ i c m s1); [exact Ec|exact Em|reflexivity|reflexivity|exact K|]. destruct (keeps_chan ts [] s s1 c m K Hc) as (D & M & No & De & _ & Hi). split; [exact D|]. split; [exact M|]. split; [exact No|]. split; [exact De|]. split; [|exact Hi]. exists (length (s_planes s)). split; [reflexivity|].
      apply Hv; [reflexivity|]. unfold s1. cbn. apply nth_last. }
    destruct o as [|i|i j|f i x0|i n|i x0 fl info|i g|i h|i g|i d|i|f i|i|i|i|i]; cbn [cstep answer good_op] in *.
    - injection E as <- <-. split; [reflexivity|]. split; [|now apply Gid]. intros _. exists []. apply (inv_same t ts s _ ms); auto. cbn [s_chans mstep].
      apply Forall2_app; [eapply F2_impl; [|exact F]; intros; apply keeps_chan with (s := s); auto|]. constructor; [|constructor]. repeat split; auto.
    - eapply On; [exact E|]. intros c m Ec Em Hc [= <- <-]. split; [reflexivity|]. split; [|now apply Gid]. intros _. exists []. apply (inv_same t ts s _ ms); auto.
      cbn [s_chans mstep]. rewrite Em. apply Forall2_app; [eapply F2_impl; [|exact F]|constructor; [|constructor]]; intros; apply keeps_chan with (s := s); auto.
    - eapply On; [exact E|]. clear E. intros c m Ec Em Hc E. cbv beta in E. eapply (On j); [exact E|]. intros c2 m2 Ec2 Em2 Hc2 [= <- <-]. split; [reflexivity|]. split; [|now apply Gid]. intros _.
      cbn [mstep]. rewrite Em2. eapply (Set_ i c m); [exact Ec|exact Em|reflexivity|reflexivity|apply Kid; reflexivity|]. apply keeps_chan with (s := s); [apply Kid; reflexivity|exact Hc2].
    - eapply On; [exact E|]. clear E. intros c m Ec Em Hc E. cbv beta in E. destruct (defer (s_cells s) x0) as (cs & h) eqn:Ed. destruct (defer_ok _ _ _ _ Go Ed) as (X & Hh).
      injection E as <- <-. split; [reflexivity|]. split; [|now apply Gid]. intros _.
      assert (K : forall c', keeps s (with_chan (with_cells s cs (s_runs s)) i c')) by (intros c'; destruct (keeps_cells s cs (s_runs s) X) as (k1 & k2 & k3); split; [exact k1|]; split; [exact k2|exact k3]).
      destruct f; cbn [mstep]; (eapply Set_; [exact Ec|exact Em|reflexivity|reflexivity|apply K|]);
        match goal with |- chan_ok _ ?s1 _ _ => destruct (keeps_chan ts [] s s1 c m (K _) Hc) as (D & M & No & De & Pl & Hi) end; (split; [auto|split; [auto|split; [auto|split; [auto|split; auto]]]]).
    - eapply On; [exact E|]. clear E. intros c m Ec Em Hc E. cbv beta in E. injection E as <- <-. split; [reflexivity|]. split; [|now apply Gid]. intros _. cbn [mstep].
      eapply Set_; [exact Ec|exact Em|reflexivity|reflexivity|apply Kid; reflexivity|]. destruct (keeps_chan ts [] s s c m ltac:(apply Kid; reflexivity) Hc) as (D & M & No & De & Pl & Hi). split; [auto|split; [auto|split; [auto|split; [auto|split; auto]]]].
    - eapply On; [exact E|]. clear E. intros c m Ec Em Hc E. cbv beta in E. destruct (defer (s_cells s) x0) as (cs & h) eqn:Ed. destruct Go as (Go & Gl). destruct (defer_ok _ _ _ _ Go Ed) as (X & Hh).
      injection E as <- <-. split; [reflexivity|]. split; [|now apply Gid]. intros _. cbn [mstep]. eapply NewPlane; eauto. intros s1 E1 E2. eexists. split; [exact E2|]. rewrite E1. cbn. auto.
    - eapply On; [exact E|]. clear E. intros c m Ec Em Hc E. cbv beta in E. injection E as <- <-. split; [reflexivity|]. split; [|now apply Gid]. intros _. cbn [mstep]. eapply NewPlane; eauto. apply ext_refl.
    - eapply On; [exact E|]. clear E. intros c m Ec Em Hc E. cbv beta in E. injection E as <- <-. split; [reflexivity|]. destruct (NewHits i c m (HVal h) (HNow h) Ec Em Hc) as (X1 & X2); [auto|]. split; [intros _; exact X1|exact X2].
    - eapply On; [exact E|]. clear E. intros c m Ec Em Hc E. cbv beta in E. injection E as <- <-. split; [reflexivity|]. destruct (NewHits i c m (HGen g) (HLater g) Ec Em Hc) as (X1 & X2); [cbn; auto|]. split; [intros _; exact X1|exact X2].
    - eapply On; [exact E|]. clear E. intros c m Ec Em Hc E. cbv beta in E. cbn [mstep]. unfold refused in *. destruct (on_gpu (d_type d) && negb (valid (d_id d)))%bool; cbv beta iota in E; injection E as <- <-; (split; [reflexivity|]); (split; [|now apply Gid]); intros _.
      + apply Same; auto.
      + destruct Go as [Go|Go]; [discriminate|]. eapply Set_; [exact Ec|exact Em|reflexivity|reflexivity|apply Kid; reflexivity|]. destruct (keeps_chan ts [] s s c m ltac:(apply Kid; reflexivity) Hc) as (D & M & No & De & Pl & Hi). split; [auto|split; [auto|split; [auto|split; [auto|split; auto]]]].
    - eapply On; [exact E|]. clear E. intros c m Ec Em Hc E. cbv beta in E. destruct (push move s i c) as (s1 & y) eqn:Ep. injection E as <- <-. destruct (push_ok (ts ++ []) s i c m s1 y Ep ltac:(now rewrite app_nil_r) Ec) as (P1 & P2 & (c' & P3 & P4) & P5).
      split; [|split; [|now apply Gid]].
      + destruct (m_mask m), (m_data m); (try (subst y; reflexivity)); destruct P5 as [->|(e & b & -> & Gb & P5)]; [left; reflexivity|right; exists e, b; auto|left; reflexivity|right; exists e, b; auto].
      + intros Hy. cbn [mstep]. eapply Stay; eauto. apply P4. intros ->. now apply Hy.
    - eapply On; [exact E|]. clear E. intros c m Ec Em Hc E. cbv beta in E. destruct (get_field move gen f s i c) as (s1 & y) eqn:Ep. injection E as <- <-. destruct (get_field_ok (ts ++ []) f s i c m s1 y Ep ltac:(now rewrite app_nil_r) Ec) as (P1 & P2 & (c' & P3 & P4) & P5).
      split; [|split; [|now apply Gid]].
      + destruct (match f with Data => m_data m | Mask => m_mask m end); [|now subst y]. exists y. auto.
      + intros Hy. cbn [mstep]. eapply Stay; eauto. apply P4. intros ->. now apply Hy.
    - eapply On; [exact E|]. clear E. intros c m Ec Em Hc E. cbv beta in E. injection E as <- <-. split; [|split; [|now apply Gid]].
      + destruct Hc as (_ & _ & -> & _). reflexivity.
      + intros _. apply Same; auto.
    - eapply On; [exact E|]. clear E. intros c m Ec Em Hc E. cbv beta in E. cbn [mstep]. pose proof Hc as (D & M & No & (De & Fd) & Pl & Hi). unfold get_plane in E. destruct (m_plane m) as [ps|].
      2:{ rewrite Pl in E. injection E as <- <-. split; [reflexivity|]. split; [|now apply Gid]. intros _. apply Same; auto. }
      destruct Pl as (q & Eq & Pq). rewrite Eq in E. destruct ps as [so fl info|g]; cbn [plane_ok] in Pq.
      + destruct Pq as (p & Np & Hp & Fp & Gp & Ip). rewrite Np in E. set (p' := Plane (p_drifts p) (p_flags p) (p_info p) (c_dev c)) in E.
        assert (K : keeps s (with_plane s q (PVal p'))).
        { assert (K0 : keeps s (with_plane (with_cells s (s_cells s) (s_runs s)) q (PVal p'))) by (apply (keeps_plane s (s_cells s) (s_runs s) q p p'); auto using ext_refl). exact K0. }
        destruct (read_plane_ok (with_plane s q (PVal p')) p' so fl info s' x ltac:(cbn; now rewrite De) Gp E) as (P1 & P2 & P3 & P4); auto.
        cbn [p_dev p'] in P4. rewrite De in P4. split; [exact P4|]. split; [|apply Gid; rewrite P1; reflexivity]. intros _. apply Same; [rewrite P2; reflexivity|rewrite P1; reflexivity|eapply keeps_trans; eauto].
      + rewrite Pq in E. set (k := times (s_pruns s) g) in *. pose proof (pgen_ok g k) as Gg. set (s1 := CState _ _ _ _ _ _ _) in E. assert (K : keeps s s1) by (apply Kid; reflexivity).
        destruct (pgen g k) as [((a & fl) & info)|e|] eqn:Eg; [|injection E as <- <-|contradiction].
        * destruct Gg as (Ga & Gl). destruct (defer (s_cells s1) (Arr a)) as (cs & h) eqn:Ed. destruct (defer_ok _ (Arr a) _ _ Ga Ed) as (X & Hh).
          destruct (read_plane_ok (with_cells s1 cs (s_runs s1)) (Plane h fl info (c_dev c)) (Arr a) fl info s' x ltac:(cbn; now rewrite De) Gl E) as (P1 & P2 & P3 & P4); auto.
          cbn [p_dev] in P4. rewrite De in P4. split; [exists k; rewrite Eg; exact P4|]. split; [|apply Gid; rewrite P1; reflexivity]. intros _.
          apply Same; [rewrite P2; reflexivity|rewrite P1; reflexivity|]. eapply keeps_trans; [exact K|]. eapply keeps_trans; [|exact P3]. now apply keeps_cells.
        * split; [exists k; now rewrite Eg|]. split; [|now apply Gid]. intros _. apply Same; auto.
    - eapply On; [exact E|]. clear E. intros c m Ec Em Hc E. cbv beta in E. cbn [mstep]. pose proof Hc as (D & M & No & De & Pl & Hi). unfold get_hits in E. destruct (m_hits m) as [(u & hs)|].
      2:{ rewrite Hi in E. injection E as <- <-. split; [reflexivity|]. split; [|now apply Gid]. intros _. apply Same; auto. }
      destruct Hi as (q & Eq & Pq & Tq). rewrite Eq in E. destruct hs as [h|g]; cbn [hits_ok] in Pq.
      + rewrite Pq in E. injection E as <- <-. split; [reflexivity|]. split; [|now apply Gid]. intros _. apply Same; auto.
      + destruct Pq as [Pq|(h & k & Pq & Eh)]; rewrite Pq in E.
        2:{ injection E as <- <-. split; [exists k; now rewrite Eh|]. split; [|now apply Gid]. intros _. apply Same; auto. }
        set (k := times (s_hruns s) g) in *. destruct (hgen g k) as [h|e|] eqn:Eh; injection E as <- <-; (split; [exists k; rewrite Eh; reflexivity|]).
        * set (s1 := CState _ _ _ _ _ _ _). split.
          -- intros _. assert (K : keeps s s1).
             { split; [apply ext_refl|]. split; [auto|]. unfold hits_ok, s1. cbn [s_hits]. intros q' [h'|g'].
               - intros Hq. destruct (Nat.eq_dec q q') as [<-|n]; [congruence|]. now rewrite nth_error_upd_other by auto.
               - destruct (Nat.eq_dec q q') as [<-|n]; [|now rewrite nth_error_upd_other by auto]. rewrite (nth_error_upd_same _ _ _ _ Pq), Pq.
                 intros [[= <-]|(h' & k' & [=] & _)]. right. exists h, k. auto. }
             exists []. destruct V as [V1 V2 V3 V4]. split; [|rewrite app_nil_r; unfold s1; cbn; now rewrite upd_length|rewrite app_nil_r; eapply Forall_impl; [|exact V3]; cbn; lia|now rewrite app_nil_r].
             eapply F2_impl; [|exact F]. intros. now apply keeps_chan with (s := s).
          -- intros q' h' Hq. unfold s1. cbn. destruct (Nat.eq_dec q q') as [<-|n]; [congruence|]. now rewrite nth_error_upd_other by auto.
        * split; [|now apply Gid]. intros _. apply Same; auto.
        * split; [|now apply Gid]. intros Hx. now destruct Hx.
    - eapply On; [exact E|]. clear E. intros c m Ec Em Hc E. cbv beta in E. injection E as <- <-. split; [|split; [|now apply Gid]].
      + destruct Hc as (_ & _ & _ & _ & _ & Hi). destruct (m_hits m) as [(u & hs)|]; [|now rewrite Hi]. destruct Hi as (q & -> & _). reflexivity.
      + intros _. apply Same; auto.
  Qed.

  Notation prog := (crun move gen pgen hgen valid).
  Lemma run_at k : forall t ts s ms ops x, Forall good_op ops -> inv t ts s ms -> nth_error (fst (prog s ops)) k = Some x ->
    exists o sk s' l, nth_error ops k = Some o /\ inv (t + k) (ts ++ l) sk (meanings t ms (firstn k ops)) /\ cstep move gen pgen hgen valid sk o = (s', x) /\ grows s sk /\
      (x <> UB -> forall j, nth_error (fst (prog s ops)) (k + S j) = nth_error (fst (prog s' (skipn (S k) ops))) j).
  Proof.
    induction k as [|k IH]; intros t ts s ms [|o ops] x Gops V; cbn [crun]; try (cbn; discriminate).
    - destruct (cstep move gen pgen hgen valid s o) as (s' & y) eqn:E. destruct (prog s' ops) as (l & s2) eqn:El. intros Hx.
      assert (y = x) as -> by (destruct y; cbn in Hx; congruence).
      exists o, s, s', []. split; [reflexivity|]. rewrite Nat.add_0_r, app_nil_r. split; [exact V|]. split; [exact E|]. split; [intros q h Hq; exact Hq|].
      intros Nx j. cbn [skipn]. rewrite El. destruct x; [reflexivity|reflexivity|congruence].
    - destruct (cstep move gen pgen hgen valid s o) as (s' & y) eqn:E. destruct (prog s' ops) as (l & s2) eqn:El. intros Hx.
      assert (Ny : y <> UB) by (intros ->; cbn in Hx; destruct k; discriminate).
      assert (Hl : nth_error l k = Some x) by (destruct y; cbn in Hx; congruence).
      apply Forall_cons_iff in Gops as (Go & Gops). destruct (step_ok _ _ _ _ _ _ _ Go V E) as (_ & V' & G). destruct (V' Ny) as (l1 & V1).
      destruct (IH (S t) (ts ++ l1) s' (mstep t ms o) ops x Gops V1) as (o' & sk & s3 & l2 & N1 & N2 & N3 & N4 & N5); [now rewrite El|].
      exists o', sk, s3, (l1 ++ l2). split; [exact N1|]. rewrite app_assoc. replace (t + S k) with (S t + k) by lia. split; [exact N2|]. split; [exact N3|].
      split; [intros q h Hq; apply N4, G, Hq|]. intros Nx j. specialize (N5 Nx j). rewrite El in N5. cbn [skipn]. cbn [skipn] in N5. rewrite <- N5. destruct y; [reflexivity|reflexivity|congruence].
  Qed.
  Lemma inv_start : inv 0 [] cstart [].
  Proof. split; cbn; try constructor. Qed.
  Lemma meanings_split k : forall j t ms ops o, nth_error ops k = Some o ->
    meanings t ms (firstn (k + S j) ops) = meanings (t + S k) (mstep (t + k) (meanings t ms (firstn k ops)) o) (firstn j (skipn (S k) ops)).
  Proof.
    induction k as [|k IH]; intros j t ms [|o0 ops] o; cbn [nth_error]; try discriminate.
    - intros [= ->]. cbn [Nat.add firstn meanings skipn]. now rewrite Nat.add_0_r, Nat.add_1_r.
    - intros Ho. cbn [Nat.add firstn meanings]. rewrite (IH j (S t) _ ops o Ho). cbn [skipn]. f_equal; [lia|]. f_equal. lia.
  Qed.

  Lemma all_answers ops k x : Forall good_op ops -> nth_error (fst (prog cstart ops)) k = Some x -> exists o, nth_error ops k = Some o /\ answer (meanings 0 [] (firstn k ops)) o x.
  Proof.
    intros Gops Hx. destruct (run_at k 0 [] cstart [] ops x Gops inv_start Hx) as (o & sk & s' & l & N1 & N2 & N3 & _). exists o. split; [exact N1|].
    apply nth_error_In in N1. rewrite Forall_forall in Gops. now apply (step_ok _ _ _ _ _ _ _ (Gops _ N1) N2 N3).
  Qed.
  Lemma run_length (ops : list (cop A N I H)) : forall s, length (fst (prog s ops)) = length ops \/ In UB (fst (prog s ops)).
  Proof.
    induction ops as [|o ops IH]; intros s; cbn [crun]; [auto|]. destruct (cstep move gen pgen hgen valid s o) as (s' & y). specialize (IH s'). destruct (prog s' ops) as (l & s2). cbn [fst] in IH.
    destruct y; cbn; intuition.
  Qed.
  Lemma hits_shared ops k1 k2 i1 i2 m1 m2 u hs1 hs2 h x : Forall good_op ops -> k1 < k2 ->
    nth_error ops k1 = Some (GetHits i1) -> nth_error ops k2 = Some (GetHits i2) ->
    nth_error (meanings 0 [] (firstn k1 ops)) i1 = Some m1 -> m_hits m1 = Some (u, hs1) -> nth_error (meanings 0 [] (firstn k2 ops)) i2 = Some m2 -> m_hits m2 = Some (u, hs2) ->
    nth_error (fst (prog cstart ops)) k1 = Some (Ok (OHits h)) -> nth_error (fst (prog cstart ops)) k2 = Some x -> x = Ok (OHits h).
  Proof.
    intros Gops Lt O1 O2 M1 U1 M2 U2 R1 R2. destruct (run_at k1 0 [] cstart [] ops _ Gops inv_start R1) as (o & s1 & s1' & l & N1 & V1 & E1 & _ & Rest).
    rewrite O1 in N1. injection N1 as <-. cbn [Nat.add app] in V1.
    destruct (step_ok _ _ _ _ (GetHits i1) _ _ Logic.I V1 E1) as (_ & V1' & _). destruct V1' as (l1 & V1'); [discriminate|]. cbn [mstep] in V1'.
    (* the cell after the first read *)
    assert (exists q, nth_error l q = Some u /\ nth_error (s_hits s1') q = Some (HVal h)) as (q & Tq & Hq).
    { cbn [cstep] in E1. pose proof (F2_nth _ _ _ i1 (inv_chans _ _ _ _ V1)) as Hn. rewrite M1 in Hn. destruct (nth_error (s_chans s1) i1) as [c|]; [|contradiction].
      destruct Hn as (_ & _ & _ & _ & _ & Hi). rewrite U1 in Hi. destruct Hi as (q & Eq & Pq & Tq). exists q. split; [exact Tq|]. unfold get_hits in E1. rewrite Eq in E1.
      destruct (nth_error (s_hits s1) q) as [[h'|g]|] eqn:Ev; [|destruct (hgen g _) as [h'|e|]|]; cbn [obind] in E1; try discriminate.
      - injection E1 as <- <-. exact Ev.
      - injection E1 as <- <-. cbn. now rewrite (nth_error_upd_same _ _ _ _ Ev). }
    assert (Gops2 : Forall good_op (skipn (S k1) ops)) by (rewrite <- (firstn_skipn (S k1) ops) in Gops; apply Forall_app in Gops; tauto).
    specialize (Rest ltac:(discriminate) (k2 - S k1)). replace (k1 + S (k2 - S k1)) with k2 in Rest by lia. rewrite R2 in Rest. symmetry in Rest.
    destruct (run_at (k2 - S k1) _ _ _ _ _ _ Gops2 V1' Rest) as (o2 & s2 & s2' & l2 & N2 & V2 & E2 & G2 & _).
    assert (Em : meanings (S k1) (meanings 0 [] (firstn k1 ops)) (firstn (k2 - S k1) (skipn (S k1) ops)) = meanings 0 [] (firstn k2 ops)).
    { pose proof (meanings_split k1 (k2 - S k1) 0 [] ops _ O1) as Em. replace (k1 + S (k2 - S k1)) with k2 in Em by lia. symmetry. exact Em. }
    rewrite Em in V2. assert (o2 = GetHits i2) as ->.
    { rewrite <- (firstn_skipn (S k1) ops) in O2. rewrite nth_error_app2 in O2; rewrite firstn_length in *; [|lia].
      assert (k1 < length ops) by (apply nth_error_Some; congruence). replace (k2 - Nat.min (S k1) (length ops)) with (k2 - S k1) in O2 by lia. congruence. }
    cbn [cstep] in E2. pose proof (F2_nth _ _ _ i2 (inv_chans _ _ _ _ V2)) as Hn. rewrite M2 in Hn. destruct (nth_error (s_chans s2) i2) as [c|]; [|contradiction].
    destruct Hn as (_ & _ & _ & _ & _ & Hi). rewrite U2 in Hi. destruct Hi as (q2 & Eq & Pq & Tq2).
    assert (q2 = q) as ->.
    { apply (proj1 (NoDup_nth_error ((l ++ l1) ++ l2)) (inv_nodup _ _ _ _ V2)); [apply nth_error_Some; congruence|]. rewrite Tq2. symmetry. now apply nth_app_l, nth_app_l. }
    unfold get_hits in E2. rewrite Eq, (G2 _ _ Hq) in E2. cbn [obind] in E2. congruence.
  Qed.
End Spec.

(** What is assumed of moving arrays and of the callables: on the arrays and devices that the program uses a move keeps the elements and ends on the
    device asked for, or throws. *)
Definition library_ok {A I C} (move : A -> dev -> outcome A) (gen : nat -> nat -> outcome A) (pgen : nat -> nat -> outcome (A * list A * I)) (content : A -> C) (on : A -> dev)
    (good : A -> Prop) (fine : dev -> Prop) : Prop :=
  (forall a d, good a -> fine d -> match move a d with Ok b => content b = content a /\ on b = d /\ good b | Throw _ => True | UB => False end) /\
  (forall g k, match gen g k with Ok a => good a | Throw _ => True | UB => False end) /\
  (forall g k, match pgen g k with Ok (a, fl, _) => good a /\ Forall good fl | Throw _ => True | UB => False end) /\
  fine (Dev Cpu 0).

(** Every call answers according to the last setting made on its channel, or on the channel it was copied from. *)
Theorem C88_answers : forall A N I H C move gen pgen hgen valid (content : A -> C) on good fine, library_ok move gen pgen content on good fine ->
  forall ops : list (cop A N I H), Forall (good_op valid good fine) ops ->
  forall k x, nth_error (fst (crun move gen pgen hgen valid cstart ops)) k = Some x ->
  exists o, nth_error ops k = Some o /\ answer move gen pgen hgen valid content on good (meanings valid 0 [] (firstn k ops)) o x.
Proof.
  intros A N I H C move gen pgen hgen valid content on good fine (L1 & L2 & L3 & L4) ops G k x E.
  eapply all_answers; eauto.
Qed.
Print Assumptions C88_answers.

(** No behaviour is undefined if every channel used exists and data and mask were set before they are read or pushed. *)
Definition ready {A N I H} (ms : list (meaning A N I H)) (o : cop A N I H) : Prop :=
  let for_ i (P : meaning A N I H -> Prop) := exists m, nth_error ms i = Some m /\ P m in
  match o with
  | New => True
  | AssignC i j => for_ i (fun _ => for_ j (fun _ => True))
  | CopyC i | SetF _ i _ | SetNoise i _ | SetPlane i _ _ _ | SetPlaneGen i _ | SetHits i _ | SetHitsGen i _ | SetDev i _ | GetNoise i | GetPlane i | GetHits i | HasHits i => for_ i (fun _ => True)
  | Push i => for_ i (fun m => m_data m <> None /\ m_mask m <> None)
  | GetF f i => for_ i (fun m => match f with Data => m_data m | Mask => m_mask m end <> None)
  end.
Theorem C88_defined : forall A N I H C move gen pgen hgen valid (content : A -> C) on good fine, library_ok move gen pgen content on good fine -> (forall g k, hgen g k <> UB) ->
  forall ops : list (cop A N I H), Forall (good_op valid good fine) ops ->
  (forall k o, nth_error ops k = Some o -> ready (meanings valid 0 [] (firstn k ops)) o) ->
  length (fst (crun move gen pgen hgen valid cstart ops)) = length ops /\ ~ In UB (fst (crun move gen pgen hgen valid cstart ops)).
Proof.
  intros A N I H C move gen pgen hgen valid content on good fine L Hh ops G R.
  assert (U : ~ In UB (fst (crun move gen pgen hgen valid cstart ops))).
  { intros Hin. apply In_nth_error in Hin as (k & Hk). destruct (C88_answers _ _ _ _ _ _ _ _ _ _ _ _ _ _ L ops G k _ Hk) as (o & Ho & An). specialize (R k o Ho).
    assert (Dl : forall s d, ~ delivers move gen content on good s d UB).
    { intros [a|g] d; cbn; [intros [(? & [=] & _)|(? & ? & [=] & _)]|]. intros (n & Hn). destruct (gen g n); [destruct Hn as [(? & [=] & _)|(? & ? & [=] & _)]|discriminate|exact Hn]. }
    assert (Dp : forall s fl info d, ~ delivers_plane (N := N) (I := I) (H := H) move gen content on good s fl info d UB).
    { intros s fl info d (y & Hy & Hx). destruct y; [destruct Hx as [(? & [=] & _)|(? & ? & ? & [=] & _)]|discriminate|exact Hx]. }
    destruct o as [|i|i j|f i x0|i n|i x0 fl info|i g|i h|i g|i d|i|f i|i|i|i|i]; cbn [answer ready] in *; try discriminate;
      destruct R as (m & Em & Pm); rewrite Em in An; try discriminate.
    - destruct Pm as (m2 & Em2 & _). rewrite Em2 in An. discriminate.
    - destruct (refused valid d); discriminate.
    - destruct Pm as (P1 & P2). destruct (m_mask m); [|congruence]. destruct (m_data m); [|congruence]. destruct An as [An|(e & b & An & _)]; discriminate.
    - destruct (match f with Data => m_data m | Mask => m_mask m end) as [s|]; [|congruence]. destruct An as (y & Hy & Ey). destruct y; try discriminate. now apply Dl in Hy.
    - destruct (m_noise m); discriminate.
    - destruct (m_plane m) as [[s fl info|g]|]; [now apply Dp in An| |discriminate]. destruct An as (n & An). destruct (pgen g n) as [((a & fl) & info)| |]; [now apply Dp in An|discriminate|exact An].
    - destruct (m_hits m) as [(u & [h|g])|]; [discriminate| |discriminate]. destruct An as (n & An). specialize (Hh g n). destruct (hgen g n); [discriminate|discriminate|congruence]. }
  split; [|exact U]. destruct (run_length move gen pgen hgen valid ops cstart) as [E|E]; [exact E|contradiction].
Qed.
Print Assumptions C88_defined.

(** A search set as hits runs until it first succeeds; from then on all copies that share the setting have its hits. *)
Theorem C88_hits_shared : forall A N I H C move gen pgen hgen valid (content : A -> C) on good fine, library_ok move gen pgen content on good fine ->
  forall ops : list (cop A N I H), Forall (good_op valid good fine) ops ->
  forall k1 k2 i1 i2 m1 m2 u hs1 hs2 h x, k1 < k2 -> nth_error ops k1 = Some (GetHits i1) -> nth_error ops k2 = Some (GetHits i2) ->
  nth_error (meanings valid 0 [] (firstn k1 ops)) i1 = Some m1 -> m_hits m1 = Some (u, hs1) ->
  nth_error (meanings valid 0 [] (firstn k2 ops)) i2 = Some m2 -> m_hits m2 = Some (u, hs2) ->
  nth_error (fst (crun move gen pgen hgen valid cstart ops)) k1 = Some (Ok (OHits h)) ->
  nth_error (fst (crun move gen pgen hgen valid cstart ops)) k2 = Some x -> x = Ok (OHits h).
Proof.
  intros A N I H C move gen pgen hgen valid content on good fine (L1 & L2 & L3 & L4) ops G. intros. eapply (hits_shared move gen pgen hgen valid content on good fine); eauto.
Qed.
Print Assumptions C88_hits_shared.

(** ** The CPU and one GPU: whole arrays, [bland::to] of C85. *)
Definition whole {V} (j : Z) (a : array V) : Prop :=
  (exists sh, a_lay a = dense sh /\ Forall (fun d => 0 <= d)%Z sh /\ (zprod sh < 2 ^ 31)%Z /\ zlen (a_mem a) = zprod sh) /\ (a_dev a = Dev Cpu 0 \/ a_dev a = Dev Cuda j).
Definition two_devices (j : Z) (d : dev) : Prop := d = Dev Cpu 0 \/ d = Dev Cuda j.
Definition elements_of {V} (a : array V) : layout * list (option V) := (a_lay a, a_mem a).
Lemma whole_moves V valid room j (a : array V) d : valid j = true -> (forall d, room d = true) -> whole j a -> two_devices j d ->
  to true valid room a d = Ok (Array d (a_lay a) (a_mem a)) /\ whole j (Array d (a_lay a) (a_mem a)).
Proof.
  intros Hv Hr ((sh & L & Nn & P & M) & Hd) Hd'. split; [|split; [exists sh; auto|destruct Hd' as [-> | ->]; cbn; auto]]. rewrite L. apply to_whole; auto.
  destruct Hd as [E|E], Hd' as [-> | ->]; rewrite E; auto; right; (split; [auto|]); eexists; [apply to_gpu|apply from_gpu]; auto.
Qed.
Theorem C88_cpu_and_gpu : forall V N I H valid room j gen pgen hgen, valid j = true -> (forall d, room d = true) ->
  (forall g k, match gen g k with Ok a => whole (V := V) j a | Throw _ => True | UB => False end) ->
  (forall g k, match pgen g k with Ok (a, fl, _) => whole j a /\ Forall (whole j) fl | Throw _ => True | UB => False end) ->
  library_ok (I := I) (to true valid room) gen pgen elements_of a_dev (whole j) (two_devices j) /\
  forall ops : list (cop (array V) N I H), Forall (good_op valid (whole j) (two_devices j)) ops ->
  forall k f i m a x, nth_error ops k = Some (GetF f i) -> nth_error (meanings valid 0 [] (firstn k ops)) i = Some m ->
  match f with Data => m_data m | Mask => m_mask m end = Some (Arr a) ->
  nth_error (fst (crun (to true valid room) gen pgen hgen valid cstart ops)) k = Some x ->
  x = Ok (OArr (Array (m_dev m) (a_lay a) (a_mem a))).
Proof.
  intros V N I H valid room j gen pgen hgen Hv Hr Hg Hp.
  assert (L : library_ok (I := I) (to true valid room) gen pgen elements_of a_dev (whole j) (two_devices j)).
  { split; [|split; [exact Hg|split; [exact Hp|now left]]]. intros a d Ha Hd. destruct (whole_moves V valid room j a d Hv Hr Ha Hd) as (-> & W). auto. }
  split; [exact L|]. intros ops G k f i m a x Ho Em Es Ex.
  destruct (C88_answers _ _ _ _ _ _ _ _ hgen _ _ _ _ _ L ops G k x Ex) as (o & Ho' & An). rewrite Ho in Ho'. injection Ho' as <-. cbn [answer] in An. rewrite Em, Es in An.
  destruct An as (y & [(b & -> & E & D)|(e & b & -> & Gb & E & T)] & ->); cbn [obind].
  - unfold elements_of in E. injection E as E1 E2. destruct b as [bd bl bm]. cbn in *. subst. reflexivity.
  - exfalso. assert (Fd : two_devices j (m_dev m)).
    { destruct L as (L1 & L2 & L3 & L4).
      destruct (run_at (to true valid room) gen pgen hgen valid elements_of a_dev (whole j) (two_devices j) L1 L2 L3 L4 k 0 [] cstart [] ops _ G (inv_start _ _ _ _) Ex) as (o2 & sk & s' & l & _ & V2 & _).
      pose proof (F2_nth _ _ _ i (inv_chans _ _ _ _ _ _ _ _ V2)) as Hn. rewrite Em in Hn. destruct (nth_error (s_chans sk) i); [|contradiction]. apply Hn. }
    destruct (whole_moves V valid room j b (m_dev m) Hv Hr Gb Fd) as (T' & _). congruence.
Qed.
Print Assumptions C88_cpu_and_gpu.
(** A program with two copies on different devices that meets every hypothesis. *)
Definition sample_program : list (cop (array Z) Z Z (list Z)) :=
  [New; SetF Data 0 (Arr (Array (Dev Cpu 0) (dense [2]%Z) [Some 5; Some 7]%Z)); CopyC 0; SetDev 1 (Dev Cuda 0); GetF Data 1; SetHitsGen 0 3; CopyC 0; GetHits 2; GetHits 0; GetF Data 0; GetHits 1].
Example C88_cpu_and_gpu_example : let j := 0%Z in let gen := fun _ _ => Throw OutOfRange in let pgen := fun _ _ => Throw OutOfRange in
  library_ok (A := array Z) (I := Z) (to true (fun _ => true) (fun _ => true)) gen pgen elements_of a_dev (whole j) (two_devices j) /\
  Forall (good_op (fun _ => true) (whole j) (two_devices j)) sample_program /\
  fst (crun (to true (fun _ => true) (fun _ => true)) gen pgen (fun g k => Ok [Z.of_nat g; Z.of_nat k]) (fun _ => true) cstart sample_program) =
    [Ok ODone; Ok ODone; Ok ODone; Ok ODone; Ok (OArr (Array (Dev Cuda 0) (dense [2]%Z) [Some 5; Some 7]%Z)); Ok ODone; Ok ODone;
     Ok (OHits [3; 0]%Z); Ok (OHits [3; 0]%Z); Ok (OArr (Array (Dev Cpu 0) (dense [2]%Z) [Some 5; Some 7]%Z)); Throw LogicError].
Proof.
  cbv zeta. split; [|split].
  - apply (C88_cpu_and_gpu Z Z Z Z (fun _ => true) (fun _ => true) 0 (fun _ _ => Throw OutOfRange) (fun _ _ => Throw OutOfRange) (fun _ _ => Throw OutOfRange)); cbn; auto.
  - unfold sample_program. repeat (apply Forall_cons || apply Forall_nil); cbn [good_op good_src]; try exact Logic.I.
    + split; [exists [2]%Z; split; [reflexivity|split; [repeat constructor; discriminate|split; reflexivity]]|now left].
    + right. now right.
  - vm_compute. reflexivity.
Qed.
Example C88_defined_example : forall k o, nth_error sample_program k = Some o -> ready (meanings (fun _ => true) 0 [] (firstn k sample_program)) o.
Proof.
  intros k o E. do 11 (destruct k as [|k]; [injection E as <-; cbn; repeat (eexists; split; [reflexivity|]); try exact Logic.I; try discriminate|]). destruct k; discriminate.
Qed.

(** With two GPUs the data is lost for good: after a read on the second one the channel's array is uninitialised, on the first one too. *)
Theorem C88_two_gpus_refuted : forall V N I H valid room i j gen pgen hgen (a : array V), i <> j -> valid i = true -> valid j = true -> (forall d, room d = true) ->
  a_dev a = Dev Cuda i ->
  exists b c, fst (crun (N := N) (I := I) (H := H) (to true valid room) gen pgen hgen valid cstart [New; SetF Data 0 (Arr a); SetDev 0 (Dev Cuda j); GetF Data 0; SetDev 0 (Dev Cuda i); GetF Data 0]) =
    [Ok ODone; Ok ODone; Ok ODone; Ok (OArr b); Ok ODone; Ok (OArr c)] /\
    a_dev b = Dev Cuda j /\ Forall (fun v => v = None) (a_mem b) /\ a_dev c = Dev Cuda i /\ Forall (fun v => v = None) (a_mem c).
Proof.
  intros V N I H valid room i j gen pgen hgen a Hij Vi Vj Hr Ha.
  destruct (C85_between_gpus_refuted V valid room Cuda i j a eq_refl Ha ltac:(congruence) (Hr _)) as (b & Eb & Db & Nb).
  destruct (C85_between_gpus_refuted V valid room Cuda j i b eq_refl Db ltac:(congruence) (Hr _)) as (c & Ec & Dc & Nc).
  assert (S : forall (v : array V) d, a_dev v = d -> to true valid room v d = Ok v) by (intros v d <-; unfold to; rewrite (proj2 (dev_eqb_ok (a_dev v) (a_dev v)) eq_refl); reflexivity).
  exists b, c. split; [|auto].
  unfold crun, cstep, get_field, def_to, def_read, with_chan, with_cells, cstart, defer.
  cbn [nth_error app s_chans s_cells s_runs s_planes s_hits s_pruns s_hruns upd c_data c_mask c_noise c_plane c_hits c_dev h_ptr h_dev h_memo length d_type d_id on_gpu andb]. rewrite Vj.
  cbn [negb nth_error app s_chans s_cells s_runs s_planes s_hits s_pruns s_hruns upd c_data c_mask c_noise c_plane c_hits c_dev h_ptr h_dev h_memo length d_type d_id on_gpu andb]. rewrite Eb.
  cbn [nth_error app s_chans s_cells s_runs s_planes s_hits s_pruns s_hruns upd c_data c_mask c_noise c_plane c_hits c_dev h_ptr h_dev h_memo length d_type d_id on_gpu andb obind]. rewrite (S b _ Db).
  cbn [nth_error app s_chans s_cells s_runs s_planes s_hits s_pruns s_hruns upd c_data c_mask c_noise c_plane c_hits c_dev h_ptr h_dev h_memo length d_type d_id on_gpu andb obind]. rewrite Vi.
  cbn [negb nth_error app s_chans s_cells s_runs s_planes s_hits s_pruns s_hruns upd c_data c_mask c_noise c_plane c_hits c_dev h_ptr h_dev h_memo length d_type d_id on_gpu andb obind]. rewrite Ec.
  cbn [nth_error app s_chans s_cells s_runs s_planes s_hits s_pruns s_hruns upd c_data c_mask c_noise c_plane c_hits c_dev h_ptr h_dev h_memo length d_type d_id on_gpu andb obind]. rewrite (S c _ Dc). reflexivity.
Qed.
Print Assumptions C88_two_gpus_refuted.
Example C88_two_gpus_example : a_dev (Array (Dev Cuda 0) (dense [2]%Z) [Some 5; Some 7]%Z) = Dev Cuda 0. Proof. reflexivity. Qed.

(** A plane is searched by the kernels of the device that its channel has at that moment, and its flag counts are on that device too. *)
Theorem C88_search_device : forall A N I H C move gen pgen hgen valid (content : A -> C) on good fine cuda, library_ok move gen pgen content on good fine ->
  forall ops : list (cop A N I H), Forall (good_op valid good fine) ops ->
  forall k i m a fl info, nth_error ops k = Some (GetPlane i) -> nth_error (meanings valid 0 [] (firstn k ops)) i = Some m ->
  nth_error (fst (crun move gen pgen hgen valid cstart ops)) k = Some (Ok (OPlane a fl info)) ->
  Forall (fun b => on b = on a) fl /\
  search_engine cuda (d_type (on a)) = match d_type (m_dev m) with Cpu => Ok CpuKernel | Cuda => if cuda then Ok CudaKernel else Throw RuntimeError | _ => Throw RuntimeError end.
Proof.
  intros A N I H C move gen pgen hgen valid content on good fine cuda L ops G k i m a fl info Ho Em Ex.
  destruct (C88_answers _ _ _ _ _ _ _ _ hgen _ _ _ _ _ L ops G k _ Ex) as (o & Ho' & An). rewrite Ho in Ho'. injection Ho' as <-. cbn [answer] in An. rewrite Em in An.
  assert (P : forall s fl0 info0, delivers_plane move gen content on good s fl0 info0 (m_dev m) (Ok (OPlane (N := N) (H := H) a fl info)) -> on a = m_dev m /\ Forall (fun b => on b = m_dev m) fl).
  { intros s fl0 info0 (y & Hy & Hx). destruct y as [a'|e|]; [|discriminate|contradiction]. destruct Hx as [(fl' & E & F)|(e & b & c & [=] & _)]. injection E as <- <- <-.
    assert (Ar : forall a0, arrives move content on good a0 (m_dev m) (Ok a) -> on a = m_dev m) by (intros a0 [(b & [= <-] & _ & D)|(e & b & [=] & _)]; exact D).
    split; [destruct s as [a0|g]; cbn in Hy; [eauto|]; destruct Hy as (n & Hy); destruct (gen g n); [eauto|discriminate|contradiction]|]. clear - F. induction F as [|u v l l' (_ & Hu) F IH]; constructor; auto. }
  assert (D : on a = m_dev m /\ Forall (fun b => on b = m_dev m) fl).
  { destruct (m_plane m) as [[s fl0 info0|g]|]; [eauto| |discriminate]. destruct An as (n & An). destruct (pgen g n) as [((a0 & fl0) & info0)| |]; [eauto|discriminate|contradiction]. }
  destruct D as (D & F). rewrite D. split; [exact F|reflexivity].
Qed.
Print Assumptions C88_search_device.
(** So a device with managed memory is accepted by set_device and serves every read, but no search runs on it. *)
Theorem C88_managed_search_refuted : forall cuda valid j, valid j = true -> refused valid (Dev CudaManaged j) = false /\ search_engine cuda CudaManaged = Throw RuntimeError.
Proof. intros cuda valid j Hj. unfold refused. cbn. rewrite Hj. auto. Qed.
Print Assumptions C88_managed_search_refuted.
Example C88_search_device_example : exists a fl info,
  nth_error (fst (crun (A := Z * dev) (N := Z) (I := Z) (H := Z) (fun a d => Ok (fst a, d)) (fun _ _ => Throw OutOfRange) (fun _ _ => Throw OutOfRange) (fun _ _ => Throw OutOfRange) (fun _ => true) cstart
    [New; SetPlane 0 (Arr (8%Z, Dev Cpu 0)) [(1%Z, Dev Cpu 0); (2%Z, Dev Cpu 0)] 4%Z; SetDev 0 (Dev Cuda 1); GetPlane 0])) 3 = Some (Ok (OPlane a fl info)) /\
  a = (8%Z, Dev Cuda 1) /\ fl = [(1%Z, Dev Cuda 1); (2%Z, Dev Cuda 1)] /\ info = 4%Z.
Proof. do 3 eexists. split; [vm_compute; reflexivity|]. auto. Qed.
