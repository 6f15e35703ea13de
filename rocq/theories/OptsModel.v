(** What reaches the modules of src/pyclaw/fileio and src/petclaw/fileio from Solution.write and Solution.read: format,
    options dictionary and number of components.

    Programs call write and read of pyclaw.Solution or petclaw.Solution objects with numbered dictionaries; the default
    arguments of write and read are two more such dictionaries. Exceptions are caught by the program, which goes on.
    The files themselves are the subject of the models of the formats; what a header file says is an argument here. *)
From Coq Require Import Ascii String.
From Verif Require Import Base FormatModel HdfModel.

Inductive value := VNone | VBool (b : bool) | VText (t : text) | VInt (n : Z).
(** A dictionary; [put] is d[k] = v *)
Definition dict := list (text * value).
Fixpoint get (k : text) (d : dict) : option value :=
  match d with [] => None | (k', v) :: r => if text_eqb k k' then Some v else get k r end.
Fixpoint put (k : text) (v : value) (d : dict) : dict :=
  match d with
  | [] => [(k, v)]
  | (k', v') :: r => if text_eqb k k' then (k, v) :: r else (k', v') :: put k v r
  end.
Definition get_or (k : text) (v : value) (d : dict) : value := match get k d with Some x => x | None => v end.

(** pyclaw/fileio/hdf5.py:95-98, petclaw/fileio/hdf5.py:82-85 *)
Definition hdf_defaults : dict :=
  [(lit "compression", VNone); (lit "compression_opts", VNone); (lit "chunks", VNone);
   (lit "shuffle", VBool false); (lit "fletcher32", VBool false)].
Definition fill (d : dict) : dict := fold_left (fun d kv => put (fst kv) (get_or (fst kv) (snd kv) d) d) hdf_defaults d.
(** Further keywords of h5py's create_dataset *)
Definition h5py_keywords : list text := [lit "maxshape"; lit "fillvalue"; lit "scaleoffset"; lit "track_times"].
Definition known (k : text) : bool := existsb (text_eqb k) (map fst hdf_defaults ++ h5py_keywords).

(** petclaw/solution.py:27-34: 'petsc' in file_format *)
Fixpoint starts (p t : text) : bool :=
  match p, t with
  | [], _ => true
  | c :: p', d :: t' => if ascii_dec c d then starts p' t' else false
  | _ :: _, [] => false
  end.
Fixpoint occurs (p t : text) : bool := starts p t || match t with [] => false | _ :: r => occurs p r end.
(** solution.py:395-408 and petclaw/solution.py:27-34 get_write_func *)
Definition writer (petclaw : bool) (f : text) : option text :=
  if petclaw then
    if occurs (lit "petsc") f then Some (lit "petsc") else if occurs (lit "hdf5") f then Some (lit "hdf5") else None
  else write_module f.
(** solution.py:367-393 and petclaw/solution.py:9-25 get_read_func *)
Definition reader (petclaw : bool) (f : text) : option text :=
  if petclaw then
    if text_eqb f (lit "petsc") then Some (lit "petsc") else if text_eqb f (lit "hdf5") then Some (lit "hdf5") else None
  else read_module f.

(** The options as a module uses them: petsc.py:42-43, hdf5.py:98-139, claw_vtk.py:107; ASCII output has none *)
Inductive settings :=
| SNone
| SPetsc (clobber format : value)
| SHdf (five : list value) (others : list (option value))
| SVtk (binary : value).
Definition view (m : text) (d : dict) : settings :=
  if text_eqb m (lit "petsc") then SPetsc (get_or (lit "clobber") (VBool true) d) (get_or (lit "format") (VText (lit "binary")) d)
  else if text_eqb m (lit "hdf5") then
    SHdf (map (fun kv => get_or (fst kv) (snd kv) d) hdf_defaults) (map (fun k => get k d) h5py_keywords)
  else if text_eqb m (lit "claw_vtk") then SVtk (get_or (lit "binary") (VBool false) d)
  else SNone.

Inductive error :=
| BadFormat        (* ValueError: File format not found / not supported; TypeError without any format *)
| BadKeyword       (* TypeError of create_dataset *)
| NoCompression    (* petclaw/fileio/hdf5.py:90-93 *)
| NoNetcdf.        (* netcdf.py: NameError *)
Inductive event :=
| Wrote (module : text) (components : nat) (s : settings)
| ReadBy (module : text) (format : value).
Definition outcome := (list event * option error)%type.

Record session := mkSession { s_dicts : nat -> dict; s_comps : nat -> nat }.
Definition upd {A} (f : nat -> A) (i : nat) (x : A) : nat -> A := fun j => if Nat.eqb j i then x else f j.

(** One format: the dictionary afterwards, and what the module does *)
Definition write_one (petclaw : bool) (f : text) (comps : nat) (d : dict) : dict * (event + error) :=
  match writer petclaw f with
  | None => (d, inr BadFormat)
  | Some m =>
      if text_eqb m (lit "hdf5") then
        let d' := fill d in
        (d', if (petclaw && match get_or (lit "compression") VNone d' with VNone => false | _ => true end)%bool then inr NoCompression
             else if forallb (fun kv => known (fst kv)) d' then inl (Wrote m comps (view m d')) else inr BadKeyword)
      else if text_eqb m (lit "netcdf") then (d, inr NoNetcdf)
      else (d, inl (Wrote m comps (view m d)))
  end.
(** solution.py:282-302: the loop over the formats. claw_vtk adds a component to the solution (VtkModel). *)
Fixpoint write_all (petclaw : bool) (fmts : list text) (comps : nat) (d : dict) : nat * dict * outcome :=
  match fmts with
  | [] => (comps, d, ([], None))
  | f :: r =>
      match write_one petclaw f comps d with
      | (d', inr e) => (comps, d', ([], Some e))
      | (d', inl ev) =>
          let comps' := match ev with Wrote m _ _ => if text_eqb m (lit "claw_vtk") then S comps else comps | _ => comps end in
          let '(n, d2, (evs, e)) := write_all petclaw r comps' d' in (n, d2, (ev :: evs, e))
      end
  end.
(** solution.py:337-364 read: [header] is the format named in the file fort.t of this frame, if there is one *)
Definition read_one (petclaw : bool) (given header : option text) (d : dict) : dict * outcome :=
  match match header with Some h => Some h | None => given end with
  | None => (d, ([], Some BadFormat))
  | Some f =>
      match reader petclaw f with
      | None => (d, ([], Some BadFormat))
      | Some m =>
          let d' := put (lit "format") (VText (if text_eqb f (lit "petsc") then lit "binary" else f)) d in
          (d', ([ReadBy m (get_or (lit "format") VNone d')], None))
      end
  end.

Inductive op :=
| Assign (i : nat) (k : text) (v : value)                                     (* the program assigns d[k] = v *)
| Write (petclaw : bool) (sol i : nat) (fmts : list text)
| Read (petclaw : bool) (i : nat) (given header : option text).
Definition exec (a : op) (w : session) : session * outcome :=
  match a with
  | Assign i k v => (mkSession (upd (s_dicts w) i (put k v (s_dicts w i))) (s_comps w), ([], None))
  | Write pet sol i fmts =>
      let '(n, d, o) := write_all pet fmts (s_comps w sol) (s_dicts w i) in
      (mkSession (upd (s_dicts w) i d) (upd (s_comps w) sol n), o)
  | Read pet i given header =>
      let (d, o) := read_one pet given header (s_dicts w i) in
      (mkSession (upd (s_dicts w) i d) (s_comps w), o)
  end.
Fixpoint exec_all (os : list op) (w : session) : session :=
  match os with [] => w | a :: r => exec_all r (fst (exec a w)) end.
