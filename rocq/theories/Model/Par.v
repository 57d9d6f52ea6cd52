(** * rayon: `(0..n).into_par_iter().map(f).collect()`

    Used (with the feature `rayon`) at src/transform.rs:49-55, 339-345, 365-371, 391-397,
    417-423, src/filter/mod.rs and src/filter/bilateral.rs.

    The closures only read shared immutable data, so an execution is determined by the order
    in which the tasks take effect.  [sched] is that order (a list of task numbers, chosen by
    the runtime); each task stores its result in its own slot; a panicking task makes the
    whole call panic (rayon re-raises it); `collect` reads the slots in index order.
    Simplification: work splitting, threads and memory ordering are not modelled. *)
From Verif.Model Require Export Base.
Open Scope Z_scope.

(** transform.rs:49-55, 339-345, 365-371, 391-397, 417-423: `into_par_iter().map(f).collect()` *)
Definition par_collect {A} (sched : list Z) (n : Z) (f : Z -> outcome A) : outcome (list A) :=
  let! slots := mfold (fun slots k => let! r := f k in vset slots k (Some r)) sched
                      (repeat (@None A) (Z.to_nat n)) in
  mmap (fun s => match s with Some a => Ret a | None => Panic end) slots.
