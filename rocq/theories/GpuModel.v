(** GPU grids with block barriers: a grid is a list of blocks, a block a list of threads, a thread a resumable program
    over one memory (global arrays and the shared arrays of all blocks).  Any thread of any block may move next;
    [__syncthreads] lets a block pass when all of its threads have arrived.  [None] in the memory is an address outside
    every buffer.  Loads and stores are atomic and sequentially consistent; [BAdd] is [atomicAdd]. *)
From Verif Require Export Base.
Local Open Scope Z_scope.

Inductive bprog (A V : Type) :=
| BRet
| BRd (a : A) (k : V -> bprog A V)
| BWr (a : A) (v : V) (p : bprog A V)
| BAdd (a : A) (v : V) (p : bprog A V)
| BBar (p : bprog A V).
Arguments BRet {A V}. Arguments BRd {A V}. Arguments BWr {A V}. Arguments BAdd {A V}. Arguments BBar {A V}.

Section Grid.
  Context {A V : Type} (eqA : A -> A -> bool) (addV : V -> V -> V).
  Definition gpumem := A -> option V.
  Definition gset (m : gpumem) (a : A) (v : V) : gpumem := fun b => if eqA a b then Some v else m b.

  (** One memory operation of one thread. *)
  Inductive bstep : gpumem * bprog A V -> outcome (gpumem * bprog A V) -> Prop :=
  | bs_rd m a k v : m a = Some v -> bstep (m, BRd a k) (Ok (m, k v))
  | bs_rd_ub m a k : m a = None -> bstep (m, BRd a k) UB
  | bs_wr m a v p : m a <> None -> bstep (m, BWr a v p) (Ok (gset m a v, p))
  | bs_wr_ub m a v p : m a = None -> bstep (m, BWr a v p) UB
  | bs_add m a v p x : m a = Some x -> bstep (m, BAdd a v p) (Ok (gset m a (addV x v), p))
  | bs_add_ub m a v p : m a = None -> bstep (m, BAdd a v p) UB.

  Definition grid := (gpumem * list (list (bprog A V)))%type.
  Inductive bgstep : grid -> outcome grid -> Prop :=
  | bg_ok m B1 ps1 p ps2 B2 m' p' : bstep (m, p) (Ok (m', p')) ->
      bgstep (m, B1 ++ (ps1 ++ p :: ps2) :: B2) (Ok (m', B1 ++ (ps1 ++ p' :: ps2) :: B2))
  | bg_ub m B1 ps1 p ps2 B2 : bstep (m, p) UB -> bgstep (m, B1 ++ (ps1 ++ p :: ps2) :: B2) UB
  | bg_bar m B1 qs B2 : qs <> [] -> bgstep (m, B1 ++ map BBar qs :: B2) (Ok (m, B1 ++ qs :: B2)).

  Inductive bgsteps : grid -> outcome grid -> Prop :=
  | bgs_refl c : bgsteps c (Ok c)
  | bgs_step c c' o : bgstep c (Ok c') -> bgsteps c' o -> bgsteps c o
  | bgs_ub c : bgstep c UB -> bgsteps c UB.

  Definition grid_done (c : grid) : Prop := Forall (Forall (fun p => p = BRet)) (snd c).
  (** No infinite execution, whatever the schedule. *)
  Definition grid_ends (c : grid) : Prop := Acc (fun c' c => bgstep c (Ok c')) c.
End Grid.
