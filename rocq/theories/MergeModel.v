(** Adding kernels: kernel.py 467-487, and the declaration of local variables in the generated C function
    (codegenerator.py 410-412, 433-451, 598).
    Not modelled: the names of the sum and of its files, c_include, names that a kernel takes from the module it is
    written in (the sum looks them up in the main script, kernel.py 115-135), and kernels whose arguments are not called
    particle, fieldset and time (the sum has the argument names of the first kernel only). *)
From Coq Require Import String List ZArith QArith Bool.
From Verif Require Import GenModel.
Import ListNotations.
Local Open Scope string_scope.
Local Open Scope list_scope.

(** A kernel: the body of its function (py_ast.body), the names of its arguments and locals (co_varnames, kernel.py
    108-109), and those of its locals that are initialised by a list, which become C arrays (codegenerator.py 584-598). *)
Record kernel := mkKernel { k_body : list stmt; k_vars : list string; k_arrays : list string }.

(** co_varnames: arguments, then every name assigned, once. *)
Definition target_names (ts : list target) : list string :=
  flat_map (fun t => match t with TVar x => [x] | TAttr _ => [] end) ts.
Fixpoint assigned (s : stmt) : list string :=
  match s with
  | SAssign t _ | SAug t _ _ => target_names [t]
  | STuple ts _ | SVec ts _ _ _ _ _ => target_names ts
  | SIf _ b o => flat_map assigned b ++ flat_map assigned o
  | SWhile _ b => flat_map assigned b
  | _ => []
  end.
Definition mem (x : string) (l : list string) : bool := existsb (String.eqb x) l.
Fixpoint once (seen l : list string) : list string :=
  match l with
  | [] => []
  | x :: r => if mem x seen then once seen r else x :: once (x :: seen) r
  end.
Definition arguments : list string := ["particle"; "fieldset"; "time"].
Definition of_body (body : list stmt) : kernel :=
  mkKernel body (once [] (arguments ++ flat_map assigned body)) [].

(** kernel.py 467-477. *)
Definition merge (a b : kernel) : kernel :=
  mkKernel (k_body a ++ k_body b) (k_vars a ++ k_vars b) (k_arrays a ++ k_arrays b).
(** [k1 + k2 + ... ]: 479-482. *)
Definition plus (k : kernel) (ks : list kernel) : kernel := fold_left merge ks k.

(** codegenerator.py 436-445: [list.remove] takes out the first one. *)
Fixpoint remove1 (x : string) (l : list string) : list string :=
  match l with [] => [] | y :: r => if String.eqb x y then r else y :: remove1 x r end.
Fixpoint drop_repeated (funcvars used copy : list string) : list string :=
  match funcvars with
  | [] => copy
  | v :: r => if mem v used then drop_repeated r used (remove1 v copy) else drop_repeated r (used ++ [v]) copy
  end.
(** 411 *)
Definition kernel_vars : list string := ["particle"; "fieldset"; "time"; "output_time"; "tol"].
(** 446-448 *)
Definition drop_names (names l : list string) : list string :=
  fold_left (fun l v => if mem v l then remove1 v l else l) names l.
(** The names in the declaration "type_coord ..." (450-451). *)
Definition declared (array_vars funcvars : list string) : list string :=
  drop_names (kernel_vars ++ array_vars) (drop_repeated funcvars [] funcvars).

(** Generating the C function of a kernel. [array_vars] is an attribute of the class: "self.array_vars += [...]" (598)
    extends the one list of all generators of the process.  The result is the new list, the arrays and the other locals
    that the function declares. *)
Definition generate (array_vars : list string) (k : kernel) : list string * (list string * list string) :=
  let av := array_vars ++ k_arrays k in (av, (k_arrays k, declared av (k_vars k))).
(** Kernels made one after the other. *)
Fixpoint generate_all (array_vars : list string) (ks : list kernel) : list (list string * list string) :=
  match ks with
  | [] => []
  | k :: r => let '(av, d) := generate array_vars k in d :: generate_all av r
  end.
