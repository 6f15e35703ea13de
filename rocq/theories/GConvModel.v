(** Old gauge files: src/pyclaw/gauges.py (convert_gauges, compare_gauges, compare_old_gauges).

    An old file holds the observations of all gauges, one per line: number of the gauge, level, time, fields.  Plotting
    (plot=True) and printing (verbose=True) are left out. *)
From Coq Require Import Ascii String.
From Verif Require Import Base FormatModel GFileModel.
Open Scope Q_scope.

(** gauges.py:372-373 and 425-426: np.loadtxt(path) and data[:, 0]: the rows; one row, one column or nothing at all is a one-dimensional
    array, for which the index is an error *)
Definition old_rows (old : text) : list (list Q) + error :=
  match load_rows (lines old) with
  | None => inr ValueErr
  | Some rows =>
      match rows with
      | v :: _ :: _ => if (length v <=? 1)%nat then inr IndexErr else inl rows
      | _ => inr IndexErr
      end
  end.
(** gauges.py:373 and 426: the number of the gauge of a row *)
Definition row_id (v : list Q) : Z := trunc (nth 0 v 0).
(** gauges.py:378 and 427: the rows of a gauge *)
Definition rows_of (id : Z) (rows : list (list Q)) : list (list Q) := filter (fun v => (row_id v =? id)%Z) rows.
(** gauges.py:379-384; [nan] stands for the two coordinates np.nan.  Rows of two columns have no times: an error. *)
Definition old_gauge (nan : Q) (ncol : nat) (rows : list (list Q)) (id : Z) : gauge + error :=
  if (ncol <? 3)%nat then inr IndexErr
  else let mine := rows_of id rows in
    inl (mkGauge (Some id) (Some [nan; nan]) (Some (map (fun v => trunc (nth 1 v 0)) mine)) (Some (map (fun v => nth 2 v 0) mine))
           (Some ((ncol - 3)%nat, map (skipn 3) mine)) Stationary None).

(** gauges.py:319-320, as called in 389 with a path where a list of two paths is expected: the length of the path is taken for the
    number of paths.  For a path of two characters the first of them is taken for a directory and the output directory for the number
    of a gauge: reading that raises, too, with the error [other] (FileNotFoundError; ValueError if the file exists). *)
Definition compare_gauges (path : text) (other : error) : error := if (length path =? 2)%nat then other else ValueErr.

Section Convert.
Variable str_float : Q -> text.
Variable nan : Q.
(** the order in which a Python set gives its elements *)
Variable set_order : list Z -> list Z.

(** gauges.py:377-391: the loop over the gauges; the comparison never returns *)
Definition convert_loop (path : text) (other : error) (ncol : nat) (rows : list (list Q)) (ids : list Z) (fs : files text)
    : files text * outcome :=
  match ids with
  | [] => (fs, Done)
  | id :: _ =>
      match old_gauge nan ncol rows id with
      | inr e => (fs, Raised e)
      | inl g =>
          let (fs', o) := write str_float 15 g fs in
          match o with
          | Raised e => (fs', Raised e)
          | _ => (fs', Raised (compare_gauges path other))
          end
      end
  end.
(** gauges.py:356-391 convert_gauges: [old] is the text at [path]; the files of the output directory afterwards *)
Definition convert_gauges (path old : text) (other : error) (fs : files text) : files text * outcome :=
  match old_rows old with
  | inr e => (fs, Raised e)
  | inl rows => convert_loop path other (length (nth 0 rows [])) rows (set_order (map row_id rows)) fs
  end.
End Convert.

(** np.allclose(a, b, rtol, atol): |a - b| <= atol + rtol |b| for all values *)
Definition close (rtol atol a b : Q) : bool := qleb (Qabs (a - b)) (atol + rtol * Qabs b).
Fixpoint all2 {A} (f : A -> A -> bool) (a b : list A) : bool :=
  match a, b with
  | [], [] => true
  | x :: a', y :: b' => (f x y && all2 f a' b')%bool
  | _, _ => false
  end.
Section Compare.
Variable bytes : Type.
Variable decode64 decode32 : bytes -> list Q.
(** gauges.py:424-449 compare_old_gauges: true, false or an error.  Arrays of different shapes, which numpy compares if one of them has one
    row or column and refuses otherwise, are an error here. *)
Definition compare_old_gauges (old : text) (txt : files text) (bin : files bytes) (id : Z) (rtol atol : Q) : bool + error :=
  match old_rows old with
  | inr e => inr e
  | inl rows =>
      match read bytes decode64 decode32 txt bin id new_gauge with
      | (_, Raised e) => inr e
      | (g, _) =>
          match g_q g with
          | None => inr ValueErr
          | Some (nf, obs) =>
              let q := map (skipn 3) (rows_of id rows) in
              if ((length q =? length obs)%nat && (length (nth 0 rows []) - 3 =? nf)%nat)%bool
              then inl (all2 (all2 (close rtol atol)) q obs) else inr ValueErr
          end
      end
  end.
End Compare.
