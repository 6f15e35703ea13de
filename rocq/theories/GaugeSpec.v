(** What gauges must hold after a run. *)
From Verif Require Import Base TimeModel GaugeModel.

(** The attempts of successive calls of evolve_to_time, up to the first exception, with the final solver,
    solution and exception. *)
Fixpoint history {DQ DX E : Type} (evolve : solver E -> sol DQ DX -> option Q -> result DQ DX E) (s : solver E) (u : sol DQ DX)
    (calls : list (option Q)) : result DQ DX E :=
  match calls with
  | [] => mkResult s u [] None
  | c :: calls' =>
      let r := evolve s u c in
      match r_err r with
      | Some e => r
      | None => let r' := history evolve (r_solver r) (r_sol r) calls' in
                mkResult (r_solver r') (r_sol r') (r_trace r ++ r_trace r') (r_err r')
      end
  end.

(** The solutions after each accepted step. *)
Definition accepted_solutions {DQ DX} (tr : list (event DQ DX)) : list (sol DQ DX) :=
  map ev_after (filter ev_accepted tr).

(** The rows for a gauge in this cell. *)
Definition gauge_rows {DQ DX} (qat : DQ -> list Z -> list Q) (auxat : DX -> option (list Z -> list Q))
    (compute : list Q -> option (list Q) -> list Q) (cell : list Z) (us : list (sol DQ DX)) : list row :=
  map (fun u => (st u, compute (qat (sq u) cell) (option_map (fun f => f cell) (auxat (sx u))))) us.

(** A grid with gauges that has not been run yet: every gauge has its own file name and one index per
    dimension. *)
Definition fresh (num_dim : Z) (g : gauges) : Prop :=
  Forall (fun cell => Z.of_nat (length cell) = num_dim) (g_cells g) /\
  length (g_names g) = length (g_cells g) /\ NoDup (g_names g) /\ g_files g = [] /\ g_data g = [].

(** Everything about the gauges but their data. *)
Definition same_gauges (a b : gauges) : Prop :=
  g_cells a = g_cells b /\ g_names a = g_names b /\ g_keep a = g_keep b /\ g_old a = g_old b.
