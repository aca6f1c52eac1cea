(** Shared vocabulary of the whole development (no /repo code is modelled here). *)
From Coq Require Export List ZArith Lia Bool.
From Coq Require Import ZifyBool ZifyNat.
Export ListNotations.
Ltac Zify.zify_post_hook ::= Z.div_mod_to_equations.

(** C++ exceptions that the modelled code raises, by standard class. *)
Inductive exn :=
| InvalidArgument | OutOfRange | RuntimeError | LogicError | BadOptionalAccess | OtherExn.

(** Result of a call: a value, a C++ exception, or undefined behaviour
    (out-of-bounds access, division by zero, ...). *)
Inductive outcome (A : Type) :=
| Ok (a : A)
| Throw (e : exn)
| UB.
Arguments Ok {A} a.
Arguments Throw {A} e.
Arguments UB {A}.

Definition obind {A B} (m : outcome A) (k : A -> outcome B) : outcome B :=
  match m with Ok a => k a | Throw e => Throw e | UB => UB end.
Notation "'let!' x ':=' m 'in' k" := (obind m (fun x => k))
  (at level 200, x name, m at level 100, k at level 200).

Definition omap {A B} (f : A -> B) (m : outcome A) : outcome B :=
  let! a := m in Ok (f a).

Local Open Scope Z_scope.

Global Arguments Z.add : simpl never.
Global Arguments Z.sub : simpl never.
Global Arguments Z.mul : simpl never.
Global Arguments Z.div : simpl never.
Global Arguments Z.modulo : simpl never.
Global Arguments Z.quot : simpl never.
Global Arguments Z.rem : simpl never.
Global Arguments Z.opp : simpl never.
Global Arguments Z.max : simpl never.
Global Arguments Z.min : simpl never.
Global Arguments Z.pow : simpl never.
Global Arguments Z.of_nat : simpl never.
Global Arguments Z.to_nat : simpl never.

(** [zrange n] is [0; 1; ...; n-1] (empty when n <= 0). *)
Definition zrange (n : Z) : list Z := map Z.of_nat (seq 0 (Z.to_nat n)).

Definition zsum (l : list Z) : Z := fold_right Z.add 0 l.
Definition zprod (l : list Z) : Z := fold_right Z.mul 1 l.

Arguments zsum : simpl never.
Arguments zprod : simpl never.
Arguments zrange : simpl never.

(** Checked list access: [None] outside the list (negative indices included). *)
Definition znth {A} (l : list A) (i : Z) : option A :=
  if i <? 0 then None else nth_error l (Z.to_nat i).

(** Checked access with C++ [operator[]] meaning: undefined behaviour outside. *)
Definition zget {A} (l : list A) (i : Z) : outcome A :=
  match znth l i with Some a => Ok a | None => UB end.

Fixpoint upd {A} (l : list A) (n : nat) (f : A -> A) : list A :=
  match l, n with
  | [], _ => []
  | x :: t, O => f x :: t
  | x :: t, S n' => x :: upd t n' f
  end.

Definition zlen {A} (l : list A) : Z := Z.of_nat (length l).

(** [int32_t]/[uint8_t] conversions (two's complement truncation). *)
Definition to_int32 (z : Z) : Z := (z + 2 ^ 31) mod 2 ^ 32 - 2 ^ 31.
Definition to_uint8 (z : Z) : Z := z mod 256.
