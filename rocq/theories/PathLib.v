(** [pathlib.PurePosixPath] as far as the command line and the file prediction use
    it (CPython 3.10-3.13), and file systems.  Nothing here models a file of /repo. *)
From Verif Require Import PyBase.
Local Open Scope list_scope.
Local Open Scope nat_scope.

(** [s.split("/")] *)
Fixpoint split_slash (s : str) : list str :=
  match s with
  | [] => [[]]
  | c :: s' => if Ascii.eqb c "/" then [] :: split_slash s'
               else match split_slash s' with [] => [[c]] | w :: ws => (c :: w) :: ws end
  end.

(** A path: its root ("", "/" or "//") and its components. *)
Record path := { pt_root : str; pt_parts : list str }.

(** [Path(s)]: empty components and "." are dropped; exactly two leading slashes
    are kept. *)
Definition path_of (s : str) : path :=
  {| pt_root := if startswith ($"/") s then
                  if startswith ($"//") s && negb (startswith ($"///") s) then $"//" else $"/"
                else [];
     pt_parts := filter (fun w => negb (isempty w) && negb (str_eqb w ($"."))) (split_slash s) |}.
(** [str(p)] *)
Definition path_str (p : path) : str :=
  match pt_root p, pt_parts p with
  | [], [] => $"."
  | r, l => r ++ join ($"/") l
  end.
(** [p.name] *)
Definition path_name (p : path) : str := last (pt_parts p) [].
(** [p.parent] *)
Definition path_parent (p : path) : path :=
  {| pt_root := pt_root p; pt_parts := removelast (pt_parts p) |}.

(** The text before and after the last "." of a name ([rfind]). *)
Fixpoint last_dot (s : str) : option (str * str) :=
  match s with
  | [] => None
  | c :: s' => match last_dot s' with
               | Some (a, b) => Some (c :: a, b)
               | None => if Ascii.eqb c "." then Some ([], s') else None
               end
  end.
(** Stem and suffix of a name: there is a suffix when the last "." is neither the
    first nor the last character. *)
Definition stem_suffix (name : str) : str * str :=
  match last_dot name with
  | Some (a, b) => if isempty a || isempty b then (name, []) else (a, "."%char :: b)
  | None => (name, [])
  end.
(** [p.suffix], [p.stem] *)
Definition path_suffix (p : path) : str := snd (stem_suffix (path_name p)).
Definition path_stem (p : path) : str := fst (stem_suffix (path_name p)).
(** [p.with_suffix(suf)] for a [suf] that is empty, or begins with "." and has something
    else than a "/" after it. *)
Definition with_suffix (p : path) (suf : str) : result path :=
  if isempty (path_name p) then Err ValueError
  else Ok {| pt_root := pt_root p; pt_parts := removelast (pt_parts p) ++ [path_stem p ++ suf] |}.

(** A file system: every path that exists, as text in the form [str(Path(..))]
    gives, and whether it is a regular file, in the order directories list them.
    Simplification: links and ".." are not resolved. *)
Definition fsys := list (str * bool).
Definition is_file (fs : fsys) (p : path) : bool :=
  existsb (fun e => snd e && str_eqb (fst e) (path_str p)) fs.

(** [fnmatch] of one component.  Simplification: "*" is the only wildcard ("?", "["
    and a component "**" are not modelled). *)
Fixpoint wild (p s : str) : bool :=
  match p with
  | [] => isempty s
  | c :: p' =>
      if Ascii.eqb c "*" then
        (fix any (s : str) : bool := wild p' s || match s with [] => false | _ :: s' => any s' end) s
      else match s with [] => false | d :: s' => Ascii.eqb c d && wild p' s' end
  end.
Fixpoint wilds (ps ws : list str) : bool :=
  match ps, ws with
  | [], [] => true
  | p :: ps', w :: ws' => wild p w && wilds ps' ws'
  | _, _ => false
  end.
(** The components of [l] after the prefix [d]. *)
Fixpoint strip_parts (d l : list str) : option (list str) :=
  match d with
  | [] => Some l
  | x :: d' => match l with
               | [] => None
               | y :: l' => if str_eqb x y then strip_parts d' l' else None
               end
  end.
(** [dir.glob(pattern)] as text, for a pattern with at least one component; an
    absolute pattern raises. *)
Definition glob (fs : fsys) (dir : path) (pattern : str) : result (list str) :=
  let pat := path_of pattern in
  if negb (isempty (pt_root pat)) then Err NotImplementedErr
  else Ok (filter (fun e =>
         str_eqb (pt_root (path_of e)) (pt_root dir) &&
         match strip_parts (pt_parts dir) (pt_parts (path_of e)) with
         | Some rest => wilds (pt_parts pat) rest
         | None => false
         end) (map fst fs)).
