(** Further theorems about earlier properties, added after wrong variants of the model had passed. *)
From Verif Require Import BaseFacts ScanModel CadenceProofs PropScan.
Local Open Scope Z_scope.
Local Open Scope list_scope.

(** C67: an error of another class while collecting the hits of a channel ends the collection with that error. *)
Theorem C67_other_errors_stop : forall F P A (O : numops F) valid (hits_of : chan F P -> outcome (list A)) s h is1 i is2 cs s' h' c e,
  zrange (to_int32 (s_num s)) = is1 ++ i :: is2 -> read_all O valid s h is1 cs s' h' ->
  Forall (fun c => match hits_of c with Ok _ => True | Throw e => is_logic e = true | UB => False end) cs ->
  fst (read_channel O valid s' h' i) = Ok c -> hits_of c = Throw e -> is_logic e = false ->
  fst (scan_hits O valid hits_of s h) = Throw e.
Proof.
  intros F P A O valid hits_of s h is1 i is2 cs s' h' c e Hz HR HF Hc He Hl. unfold scan_hits. rewrite Hz. clear Hz. generalize (@nil A). revert s h cs HR HF.
  induction is1 as [|j is1 IH]; intros s h cs HR HF acc; destruct cs as [|c1 cs]; try contradiction; cbn [app gather].
  - destruct HR as (-> & ->). unfold and_then. rewrite Hc, He, Hl. reflexivity.
  - destruct HR as (E & HR). inversion HF as [|? ? H1 H2]; subst. unfold and_then. rewrite E. destruct (hits_of c1) as [l|e1|]; [|rewrite H1|contradiction]; eapply IH; eauto.
Qed.
Print Assumptions C67_other_errors_stop.
Example C67_other_errors_case : match opened 10 with
  | Ok root => fst (scan_hits ops64 all_valid (fun c => if c_number c =? 2 then Throw RuntimeError else if c_number c =? 1 then Throw LogicError else Ok [c_number c]) root [])
  | _ => UB end = Throw RuntimeError.
Proof. vm_compute. reflexivity. Qed.
