(** Command line arguments: src/pyclaw/util.py (_info_from_argv, run_app_from_main).

    json.loads is an argument: what it makes of a text, None when it raises ValueError. Running and plotting are left
    out; what is modelled is what the application, PETSc and the plotting functions are given. *)
From Coq Require Import Ascii String.
From Verif Require Import Base FormatModel.

Definition c_eq : ascii := ascii_of_N 61.
Definition c_dash : ascii := ascii_of_N 45.
Definition text_eqb (a b : text) : bool := if list_eq_dec ascii_dec a b then true else false.

Section Arguments.
(** values other than texts and booleans: numbers, null, lists, dictionaries *)
Variable J : Type.
Inductive value := VStr (t : text) | VBool (b : bool) | VJson (j : J).
Variable json_loads : text -> option value.
Variable truthy_json : J -> bool.

(** s.count('=') *)
Definition count_eq (s : text) : nat := length (filter (Ascii.eqb c_eq) s).
(** s.split('=', 1) of a text that contains '=' *)
Fixpoint split_eq (s : text) : text * text :=
  match s with
  | [] => ([], [])
  | c :: r => if Ascii.eqb c c_eq then ([], r) else let (k, v) := split_eq r in (c :: k, v)
  end.
(** util.py:681-686 *)
Definition convert (s : text) : value :=
  let v := match json_loads s with Some v => v | None => VStr s end in
  match v with
  | VStr t => if text_eqb t (lit "True") then VBool true else if text_eqb t (lit "False") then VBool false else v
  | _ => v
  end.
Definition dict := list (text * value).
(** kwargs[key] = value: a key keeps its place *)
Fixpoint put (k : text) (v : value) (d : dict) : dict :=
  match d with
  | [] => [(k, v)]
  | (k', v') :: r => if text_eqb k k' then (k, v) :: r else (k', v') :: put k v r
  end.
Fixpoint get (k : text) (d : dict) : option value :=
  match d with [] => None | (k', v) :: r => if text_eqb k k' then Some v else get k r end.
(** util.py:676-690, one argument *)
Definition add_arg (acc : list value * dict) (s : text) : list value * dict :=
  let (args, kwargs) := acc in
  let '(key, v) := if Nat.eqb (count_eq s) 1 then let (k, v) := split_eq s in (Some k, v) else (None, s) in
  match key with
  | Some (c :: k) => (args, put (c :: k) (convert v) kwargs)
  | _ => (args ++ [convert v], kwargs)
  end.
(** util.py:652-691 _info_from_argv; argv includes the name of the program *)
Definition info_from_argv (argv : list text) : list value * dict := fold_left add_arg (tl argv) ([], []).

Definition truthy (v : value) : bool :=
  match v with VStr [] => false | VStr _ => true | VBool b => b | VJson j => truthy_json j end.
(** arg.replace('--','-') *)
Fixpoint undash (s : text) : text :=
  match s with
  | c :: ((d :: r) as r') => if (Ascii.eqb c c_dash && Ascii.eqb d c_dash)%bool then c_dash :: undash r else c :: undash r'
  | _ => s
  end.

(** what is passed on: the arguments of petsc4py.init if PETSc is used, the keyword arguments of the application, and
    what the plotting functions look at *)
Record launch := mkLaunch { l_petsc : option (list text); l_app : dict; l_htmlplot : bool; l_iplot : bool; l_outdir : option value }.
Definition get_bool (k : text) (d : dict) : bool := match get k d with Some v => truthy v | None => false end.
(** util.py:83-135 run_app_from_main *)
Definition run_app (argv : list text) : launch :=
  let kwargs := snd (info_from_argv argv) in
  mkLaunch
    (if get_bool (lit "use_petsc") kwargs
     then Some (map undash (filter (fun a => Nat.eqb (count_eq a) 0) (tl argv))) else None)
    (filter (fun kv => negb (text_eqb (fst kv) (lit "htmlplot") || text_eqb (fst kv) (lit "iplot"))) kwargs)
    (get_bool (lit "htmlplot") kwargs) (get_bool (lit "iplot") kwargs) (get (lit "outdir") kwargs).
End Arguments.
