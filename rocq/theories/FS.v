(** Model of the part of the "fs" library (PyFilesystem2) that ufoLib calls, on
    a case-sensitive file system such as OSFS on Linux or MemoryFS.  A file
    system is a tree.  Permissions, links, modification times, invalid characters
    (NUL) and hardware errors are not modelled.  The library is not part of
    /repo: this file is the trusted description of what ufoLib relies on. *)
From Coq Require Import String NArith ZArith Bool Lia List.
From Verif Require Import Base.
Import ListNotations.
Local Open Scope string_scope.
Local Open Scope list_scope.

Notation bytes := (list N).
Notation path := (list str).

Inductive node := File (b : bytes) | Dir (es : list (str * node)).

(** the subclasses of fs.errors.ResourceError that ufoLib distinguishes *)
Inductive fserr := ResourceNotFound | FileExpected | DirectoryExpected | DirectoryNotEmpty | DirectoryExists.
Inductive fres (A : Type) := FOk (a : A) | FErr (e : fserr).
Arguments FOk {A} a.
Arguments FErr {A} e.

(** fs.path.normpath followed by iteratepath: the components of a path string.
    IllegalBackReference is a ValueError. *)
Definition slash : N := 47%N.
Fixpoint normComps (cs : list str) (acc : path) : res path :=
  match cs with
  | [] => Ok (rev acc)
  | c :: r =>
    if eqb c [] || eqb c (u ".") then normComps r acc
    else if eqb c (u "..") then match acc with [] => Err ValueError | _ :: a => normComps r a end
    else normComps r (c :: acc)
  end.
Definition components (p : str) : res path := normComps (split1 slash p) [].

(** fs.path.dirname *)
Definition dirname (p : str) : str :=
  match rev (split1 slash p) with
  | [] | [_] => []
  | _ :: r => match join [slash] (rev r) with [] => [slash] | d => d end
  end.

(** the node at a path *)
Fixpoint find (t : node) (p : path) : option node :=
  match p with
  | [] => Some t
  | c :: q =>
    match t with
    | Dir es => match get c es with Some n => find n q | None => None end
    | File _ => None
    end
  end.
(** replace or create the node at a path whose parent directory exists *)
Fixpoint put (p : path) (n : node) (t : node) : option node :=
  match p with
  | [] => Some n
  | c :: q =>
    match t with
    | File _ => None
    | Dir es =>
      match q with
      | [] => Some (Dir (set c n es))
      | _ => match get c es with
             | None => None
             | Some m => match put q n m with Some m' => Some (Dir (set c m' es)) | None => None end
             end
      end
    end
  end.
(** remove the node at a path (all entries of that name) *)
Fixpoint cut (p : path) (t : node) : node :=
  match p with
  | [] => Dir []
  | c :: q =>
    match t with
    | File _ => t
    | Dir es =>
      match q with
      | [] => Dir (filter (fun e => negb (eqb c (fst e))) es)
      | _ => match get c es with None => t | Some m => Dir (set c (cut q m) es) end
      end
    end
  end.

(** FS.exists, isfile, isdir *)
Definition existsAt (t : node) (p : path) : bool := match find t p with Some _ => true | None => false end.
Definition isfile (t : node) (p : path) : bool := match find t p with Some (File _) => true | _ => false end.
Definition isdir (t : node) (p : path) : bool := match find t p with Some (Dir _) => true | _ => false end.

(** FS.getbytes; opening for reading *)
Definition getbytes (t : node) (p : path) : fres bytes :=
  match find t p with
  | Some (File b) => FOk b
  | Some (Dir _) => FErr FileExpected
  | None => FErr ResourceNotFound
  end.
(** FS.setbytes; opening for writing is [setbytes] with no bytes *)
Definition setbytes (t : node) (p : path) (b : bytes) : fres node :=
  match find t p with
  | Some (Dir _) => FErr FileExpected
  | _ => match put p (File b) t with Some t' => FOk t' | None => FErr ResourceNotFound end
  end.
(** FS.remove *)
Definition remove (t : node) (p : path) : fres node :=
  match find t p with
  | None => FErr ResourceNotFound
  | Some (Dir _) => FErr FileExpected
  | Some (File _) => FOk (cut p t)
  end.
(** FS.removetree: the root directory itself is kept *)
Definition removetree (t : node) (p : path) : fres node :=
  match find t p with
  | None => FErr ResourceNotFound
  | Some (File _) => FErr DirectoryExpected
  | Some (Dir _) => FOk (cut p t)
  end.
(** FS.removedir *)
Definition removedir (t : node) (p : path) : fres node :=
  match find t p with
  | None => FErr ResourceNotFound
  | Some (File _) => FErr DirectoryExpected
  | Some (Dir []) => FOk (cut p t)
  | Some (Dir _) => FErr DirectoryNotEmpty
  end.
(** FS.makedir(recreate=True) *)
Definition makedir (t : node) (p : path) : fres node :=
  match find t p with
  | Some (Dir _) => FOk t
  | Some (File _) => FErr DirectoryExpected
  | None => match put p (Dir []) t with Some t' => FOk t' | None => FErr ResourceNotFound end
  end.
(** FS.makedirs(recreate=True) *)
Fixpoint mkdirs (p : path) (t : node) : option node :=
  match p with
  | [] => match t with Dir _ => Some t | File _ => None end
  | c :: q =>
    match t with
    | File _ => None
    | Dir es =>
      match mkdirs q (match get c es with Some n => n | None => Dir [] end) with
      | Some m => Some (Dir (set c m es))
      | None => None
      end
    end
  end.
Definition makedirs (t : node) (p : path) : fres node :=
  match mkdirs p t with Some t' => FOk t' | None => FErr DirectoryExpected end.
(** fs.tools.remove_empty: climbs from a directory; stops at the first one that
    is not empty.  [p] is the reversed path. *)
Fixpoint removeEmpty (t : node) (p : path) : node * option fserr :=
  match p with
  | [] => (t, None)
  | _ :: q =>
    match removedir t (rev p) with
    | FOk t' => removeEmpty t' q
    | FErr DirectoryNotEmpty => (t, None)
    | FErr e => (t, Some e)
    end
  end.
(** fs.copy.copy_dir into an existing directory.  A file meeting a directory is
    an error ([None]; the library would leave a partial copy). *)
Fixpoint merge (src dst : node) {struct src} : option node :=
  match src with
  | File b => match dst with File _ => Some (File b) | Dir _ => None end
  | Dir es =>
    match dst with
    | File _ => None
    | Dir ds =>
      (fix go (es ds : list (str * node)) : option node :=
         match es with
         | [] => Some (Dir ds)
         | (k, n) :: r =>
           match get k ds with
           | None => go r (set k n ds)
           | Some m => match merge n m with Some m' => go r (set k m' ds) | None => None end
           end
         end) es ds
    end
  end.
(** FS.movedir(create=True): make the destination, copy, remove the source *)
Definition movedir (t : node) (src dst : path) : node * option fserr :=
  match makedir t dst with
  | FErr e => (t, Some e)
  | FOk t1 =>
    match find t1 src, find t1 dst with
    | None, _ | _, None => (t1, Some ResourceNotFound)
    | Some (File _), _ => (t1, Some DirectoryExpected)
    | Some s, Some d =>
      match merge s d with
      | None => (t1, Some FileExpected)
      | Some m => match put dst m t1 with
                  | Some t2 => (cut src t2, None)
                  | None => (t1, Some ResourceNotFound)
                  end
      end
    end
  end.
(** FS.scandir("/") of a directory: the entries, in some order *)
Definition entries (n : node) : list (str * node) := match n with Dir es => es | File _ => [] end.
(** FS.walk.files of a directory: the paths of all files below it *)
Fixpoint walkFiles (n : node) : list path :=
  match n with
  | File _ => [[]]
  | Dir es => (fix go es := match es with
                            | [] => []
                            | (k, m) :: r => map (cons k) (walkFiles m) ++ go r
                            end) es
  end.

(** what can be observed of a tree *)
Definition fileAt (t : node) (p : path) : option bytes := match find t p with Some (File b) => Some b | _ => None end.
(** [q] is [p] or lies below [p] *)
Definition below (p q : path) : Prop := exists r, q = p ++ r.

(** well-formed trees: the names in a directory are unique *)
Inductive wf : node -> Prop :=
| wf_file b : wf (File b)
| wf_dir es : dict_ok es -> Forall (fun e => wf (snd e)) es -> wf (Dir es).
