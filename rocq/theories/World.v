(** The parts of the operating system that silverfox uses: text files,
    directories and the current directory.

    Simplifications: no symbolic links, no permissions, no concurrent writers;
    a path such as [x/../y] is resolved lexically; every file is valid UTF-8;
    writing to an open file succeeds. *)
From Coq Require Import NArith List Bool String.
From Verif Require Import Base Str.
Import ListNotations.

(** An absolute path: the list of its components. *)
Definition path := list str.
Fixpoint path_eqb (p q : path) : bool :=
  match p, q with
  | [], [] => true
  | a :: p', b :: q' => str_eqb a b && path_eqb p' q'
  | _, _ => false
  end.

Record world : Type := mkWorld {
  files : path -> option str;
  dirs : path -> bool;
  cwd : path }.

(** [Path::components]: empty and ["."] components are dropped. *)
Definition components (s : str) : list str :=
  filter (fun c => negb (str_eqb c []) && negb (str_eqb c (lit "."))) (split_on (chr "/") s).
Definition is_absolute (s : str) : bool := starts_with (lit "/") s.

Fixpoint resolve_aux (base : path) (cs : list str) : path :=
  match cs with
  | [] => base
  | c :: cs' => if str_eqb c (lit "..") then resolve_aux (removelast base) cs'
                else resolve_aux (base ++ [c]) cs'
  end.
(** The absolute path that the operating system finds for [s]. *)
Definition resolve (w : world) (s : str) : path :=
  resolve_aux (if is_absolute s then [] else cwd w) (components s).

(** [fs::read_to_string] *)
Definition read_file (w : world) (s : str) : res str :=
  match files w (resolve w s) with Some t => Ok t | None => Err (EFile s) end.

(** [std::env::set_current_dir(path.parent().unwrap()).unwrap_or(())]: a path
    without parent panics; an empty parent or a missing directory leaves the
    current directory alone. *)
Definition chdir_parent (w : world) (s : str) : res world :=
  match components s with
  | [] => Panic
  | cs =>
      let parent := removelast cs in
      let target := resolve_aux (if is_absolute s then [] else cwd w) parent in
      let empty := negb (is_absolute s) && match parent with [] => true | _ => false end in
      if negb empty && dirs w target then Ok (mkWorld (files w) (dirs w) target) else Ok w
  end.

(** Appending to an existing file. *)
Definition append_file (w : world) (s text : str) : res world :=
  let p := resolve w s in
  match files w p with
  | None => Err (EFile s)
  | Some old =>
      Ok (mkWorld (fun q => if path_eqb q p then Some (old ++ text) else files w q)
                  (dirs w) (cwd w))
  end.
