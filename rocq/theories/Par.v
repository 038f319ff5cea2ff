(** * Par: memory operations of loop iterations and their parallel execution.

    The kernels of src/solver work on raw arrays of double inside
    [#pragma omp parallel for] loops.  An iteration is modelled as the sequence
    of its memory operations, so it can be run in order (as compiled without
    OpenMP) or interleaved with the other iterations in every possible way.
    This file models the C++/OpenMP execution of such loops; it does not
    correspond to a file of the repository.  The users are Integrators.v,
    Sweep.v and Advection.v, which cite the loops. *)
From Coq Require Import ZArith List Bool.
From Verif Require Import Base.
Import ListNotations.
Open Scope Z_scope.

Section Par.
Context {F : Type}.

(** One iteration: finished, a read of element [i] of array [a] whose value the
    rest depends on, a write, or undefined behaviour (bodies of the loops at
    euler.cpp:60, maxwell.cpp:107, 185, 264, ssprk3.cpp:64, 82, 101,
    ssprk2_advection.cpp:42). *)
Inductive thr : Type :=
| Ret
| Rd (a : nat) (i : Z) (k : F -> thr)
| Wr (a : nat) (i : Z) (v : F) (t : thr)
| Bad (u : ub_kind).

(** The arrays the loop works on, and reading and writing one element (for example
    the pointers of rk1.cpp:48-50). *)
Definition mem : Type := list (list F).
Definition mread (m : mem) (a : nat) (i : Z) : res F :=
  match nth_error m a with
  | Some l => vget l i
  | None => UB OutOfBounds
  end.
Definition mwrite (m : mem) (a : nat) (i : Z) (v : F) : res mem :=
  match nth_error m a with
  | Some l => l' <- vset l i v ;; Ok (upd m a l')
  | None => UB OutOfBounds
  end.

(** Run one iteration alone (rk1.cpp:53). *)
Fixpoint trun (t : thr) (m : mem) : res mem :=
  match t with
  | Ret => Ok m
  | Rd a i k => v <- mread m a i ;; trun (k v) m
  | Wr a i v t' => m' <- mwrite m a i v ;; trun t' m'
  | Bad u => UB u
  end.

(** Run the iterations of a loop one after the other (rk1.cpp:52-54). *)
Fixpoint seq_run (ts : list thr) (m : mem) : res mem :=
  match ts with
  | [] => Ok m
  | t :: ts' => m' <- trun t m ;; seq_run ts' m'
  end.

(** Run several loops one after the other (euler.cpp:46). *)
Fixpoint loops_run (ls : list (list thr)) (m : mem) : res mem :=
  match ls with
  | [] => Ok m
  | l :: ls' => m' <- seq_run l m ;; loops_run ls' m'
  end.

(** One memory operation of one unfinished iteration of a parallel loop (the
    pragma of euler.cpp:60).  Simplification: every iteration is a thread of its
    own, which allows more interleavings than the 8 threads of
    parallelization.h:3. *)
Inductive pstep : list thr * mem -> list thr * mem -> Prop :=
| pstep_rd : forall ts m n a i k v,
    nth_error ts n = Some (Rd a i k) -> mread m a i = Ok v ->
    pstep (ts, m) (upd ts n (k v), m)
| pstep_wr : forall ts m n a i v t m',
    nth_error ts n = Some (Wr a i v t) -> mwrite m a i v = Ok m' ->
    pstep (ts, m) (upd ts n t, m').

(** Any number of operations of the loop of euler.cpp:60. *)
Inductive psteps : list thr * mem -> list thr * mem -> Prop :=
| psteps_refl : forall c, psteps c c
| psteps_step : forall c c1 c2, pstep c c1 -> psteps c1 c2 -> psteps c c2.

(** All iterations are finished: the barrier at the end of the loop of
    euler.cpp:60. *)
Definition finished (ts : list thr) : Prop := Forall (fun t => t = Ret) ts.

(** An iteration is about to do something undefined: its next operation is
    outside an array, or undefined by itself (loop of euler.cpp:60). *)
Definition faulty (c : list thr * mem) : Prop :=
  exists n t, nth_error (fst c) n = Some t /\
  match t with
  | Ret => False
  | Rd a i _ => exists u, mread (snd c) a i = UB u
  | Wr a i v _ => exists u, mwrite (snd c) a i v = UB u
  | Bad _ => True
  end.

(** Location and kind (write or not) of the next operation (loop of
    euler.cpp:60). *)
Definition next_op (t : thr) : option (nat * Z * bool) :=
  match t with
  | Rd a i _ => Some (a, i, false)
  | Wr a i _ _ => Some (a, i, true)
  | _ => None
  end.

(** Two iterations are about to access one element and one of them writes: a
    data race, undefined behaviour in C++ (loops of euler.cpp:60 and
    ssprk2_advection.cpp:42). *)
Definition racing (ts : list thr) : Prop :=
  exists n k s t a i w1 w2, n <> k /\ nth_error ts n = Some s /\ nth_error ts k = Some t /\
    next_op s = Some (a, i, w1) /\ next_op t = Some (a, i, w2) /\ (w1 || w2 = true).

(** Everything the parallel execution of a loop from [m] can do: it ends, it
    never faults or races, and it ends with [m'] (loop of euler.cpp:60). *)
Definition par_safe (ts : list thr) (m m' : mem) : Prop :=
  Acc (fun c' c => pstep c c') (ts, m) /\
  forall c, psteps (ts, m) c ->
    ~ faulty c /\ ~ racing (fst c) /\
    (finished (fst c) -> snd c = m') /\
    (finished (fst c) \/ exists c', pstep c c').

(** The same for several loops in a row (euler.cpp:46-60). *)
Fixpoint loops_safe (ls : list (list thr)) (m m' : mem) : Prop :=
  match ls with
  | [] => m' = m
  | l :: ls' => exists m1, par_safe l m m1 /\ loops_safe ls' m1 m'
  end.

End Par.

(** for (int i = start; i < end; i += step): the values of i.  The counter must
    stay an int when it is incremented past the end (for example rk1.cpp:52,
    functions.h:14). *)
Definition int_loop (start end_ step : Z) : res (list Z) :=
  if end_ <=? start then Ok []
  else
    let n := (end_ - start + step - 1) / step in
    _ <- chk (start + n * step) ;;
    Ok (map (fun k => start + Z.of_nat k * step) (seq 0 (Z.to_nat n))).
Arguments thr F : clear implicits.
Arguments mem F : clear implicits.
