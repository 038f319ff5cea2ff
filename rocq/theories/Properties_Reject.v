(** * Calls with unsuitable variables are reported (C99). *)
From Coq Require Import ZArith List String Lia Bool Floats.SpecFloat.
From Verif Require Import Base BaseFacts BoxSpec BoxFacts Range RangeSpec RangeFacts Indexer IndexerFacts Interface
  InterfaceFacts ApiSpec ApiFacts Arith ArithFloat Chunk FieldSpec FieldFacts ChunkFacts Properties_Chunk
  VarId VarIdFacts Manager MgrSpec MgrFacts Solvers SolverFacts Vtk VtkSpec VtkFacts Properties_Manager Sweep Euler Maxwell Parallel Initial.
Import ListNotations.
Open Scope Z_scope.

(** A wrong number of inputs or of outputs: an exception, whatever the schedule of the
    threads, and nothing has changed.  The inputs are looked at first. *)
Theorem C99_euler : forall F (A : Arith F) fuel (gamma : F) ins outs (m : mgr F), List.length ins <> 1%nat \/ List.length outs <> 1%nat ->
  let o := Threw (if (List.length ins =? 1)%nat then "qk::solver::euler::solve : Output must contain one variable (rhs)."%string
                  else "qk::solver::euler::solve : Input must contain one variable (q)."%string) m in
  euler_solve fuel gamma ins outs m = o /\ forall o', euler_can fuel gamma ins outs m o' <-> o' = o.
Proof.
  intros F A fuel gamma ins outs m H o. unfold euler_solve, rhs_solve, euler_can, rhs_can, only.
  destruct ins as [|a [|b ins]]; try (split; reflexivity). destruct outs as [|c [|d outs]]; try (split; reflexivity). cbn in H. lia.
Qed.
Print Assumptions C99_euler.
Theorem C99_maxwell : forall F (A : Arith F) fuel (c : F) ins outs (m : mgr F), List.length ins <> 1%nat \/ List.length outs <> 1%nat ->
  let o := Threw (if (List.length ins =? 1)%nat then "qk::solver::maxwell::solve : Output must contain one variable (rhs)."%string
                  else "qk::solver::maxwell::solve : Input must contain one variable (q)."%string) m in
  maxwell_solve fuel c ins outs m = o /\ forall o', maxwell_can fuel c ins outs m o' <-> o' = o.
Proof.
  intros F A fuel c ins outs m H o. unfold maxwell_solve, rhs_solve, maxwell_can, rhs_can, only.
  destruct ins as [|a [|b ins]]; try (split; reflexivity). destruct outs as [|d [|e outs]]; try (split; reflexivity). cbn in H. lia.
Qed.
Print Assumptions C99_maxwell.
Theorem C99_brio_wu : forall F (A : Arith F) fuel (p : bw F) outs (m : mgr F), List.length outs <> 3%nat ->
  brio_wu_solve fuel p outs m = Threw "qk::solver::brio_wu_shock_tube::solve : Must have three output variables (electrons, ions, field)."%string m.
Proof. intros F A fuel p [|a [|b [|c [|d outs]]]] m H; try reflexivity. now cbn in H. Qed.
Print Assumptions C99_brio_wu.

(** Variables that are not cell averages cannot be exported.  The manager reports that
    after it has created the file, which is left with its first three lines. *)
Theorem C99_vtk_basis : forall F (A : Arith F) fuel name (m : mgr F) k ks,
  id_basis k <> volume_average -> Forall (fun k' => id_basis k' = id_basis k) ks ->
  manager_write_vtk fuel true name m (k :: ks) =
  Threw "qk::grid::rectilinear::write_vtk : Basis not allowed (i.e. not setup yet)."%string
    (Some [TText ("# vtk DataFile Version 2.0" ++ newline)%string; TText ("quikin output" ++ newline)%string; TText ("ASCII" ++ newline)%string]).
Proof.
  intros F A fuel name m k ks Hk H. unfold manager_write_vtk.
  assert (E : same_basis (id_basis k) (k :: ks) = true) by (apply same_basis_iff; now constructor). rewrite E. cbn [negb].
  unfold grid_write_vtk. assert (B : basis_eqb (id_basis k) volume_average = false).
  { destruct (basis_eqb (id_basis k) volume_average) eqn:B; [|reflexivity]. exfalso. apply Hk. destruct (id_basis k) as [n pts]. unfold basis_eqb in B. cbn in B.
    destruct (String.eqb_spec n "volume_average") as [->|]; cbn in B; [|discriminate]. apply Z.eqb_eq in B. now subst. }
  rewrite B. reflexivity.
Qed.
Print Assumptions C99_vtk_basis.
Theorem C99_variable_basis : forall F fuel (v : variable F) s, ds_basis (v_ds v) <> volume_average ->
  variable_write_vtk fuel v s = Threw "qk::variable::variable::write_vtk : Basis not yet supported."%string s.
Proof.
  intros F fuel v s Hk. unfold variable_write_vtk. destruct (basis_eqb (ds_basis (v_ds v)) volume_average) eqn:B; [|reflexivity]. exfalso. apply Hk.
  destruct (ds_basis (v_ds v)) as [n pts]. unfold basis_eqb in B. cbn in B. destruct (String.eqb_spec n "volume_average") as [->|]; cbn in B; [|discriminate]. apply Z.eqb_eq in B. now subst.
Qed.
Print Assumptions C99_variable_basis.

(** ** cases *)
Example C99_euler_ex : match add_variable empty q with
  | Done m => euler_solve 9 (dbl 2) [q; q] [q] m = Threw "qk::solver::euler::solve : Input must contain one variable (q)."%string m /\
              euler_solve 9 (dbl 2) [q] [] m = Threw "qk::solver::euler::solve : Output must contain one variable (rhs)."%string m
  | _ => False
  end.
Proof. vm_compute. auto. Qed.
Example C99_maxwell_ex : match add_variable empty q with
  | Done m => maxwell_solve 9 (dbl 2) [] [] m = Threw "qk::solver::maxwell::solve : Input must contain one variable (q)."%string m /\
              maxwell_solve 9 (dbl 2) [q] [s1; w] m = Threw "qk::solver::maxwell::solve : Output must contain one variable (rhs)."%string m
  | _ => False
  end.
Proof. vm_compute. auto. Qed.
Example C99_brio_wu_ex : forall p : bw spec_float, match add_variable empty q with
  | Done m => brio_wu_solve 9 p [q; s1] m = Threw "qk::solver::brio_wu_shock_tube::solve : Must have three output variables (electrons, ions, field)."%string m
  | _ => False
  end.
Proof. intros p. vm_compute. auto. Qed.
Definition on_faces : vid := mkVid "q" (["x"]%string) (mkBasis "face_basis" 3).
Example C99_vtk_basis_ex : match add_variable empty on_faces with
  | Done m => manager_write_vtk 9 true "a.vtk" m [on_faces] = Threw "qk::grid::rectilinear::write_vtk : Basis not allowed (i.e. not setup yet)."%string
      (Some [TText ("# vtk DataFile Version 2.0" ++ newline)%string; TText ("quikin output" ++ newline)%string; TText ("ASCII" ++ newline)%string])
  | _ => False
  end.
Proof. vm_compute. reflexivity. Qed.
Example C99_variable_basis_ex : match add_variable empty on_faces with
  | Done m => match mg_vars m with
              | [(_, v)] => variable_write_vtk 9 v [] = Threw "qk::variable::variable::write_vtk : Basis not yet supported."%string []
              | _ => False
              end
  | _ => False
  end.
Proof. vm_compute. reflexivity. Qed.
