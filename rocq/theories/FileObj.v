(** Model of the file objects handed out by UFOReader.getReadFileForPath and
    UFOWriter.getFileObjectForPath.
    - Files are opened in binary mode, or in text mode with the encoding UTF-8; other
      encodings are not modelled.  The fs package opens text files with newline="",
      which leaves line ends as they are.  The modes are "r", "w", "a" and "x", with or
      without "b"; "+" is not modelled.
    - A client writes to a file object and closes it before anything else changes
      the file. *)
From Coq Require Import String NArith ZArith Bool Lia List.
From Verif Require Import Base FS Ufo.
Import ListNotations.
Local Open Scope string_scope.
Local Open Scope list_scope.

Inductive omode := MRead | MWrite | MAppend | MExclusive.
(** fs.open: the file system afterwards; the errors are ResourceNotFound and the
    other resource errors (a directory is at the path, the file exists) *)
Inductive ores := OOk (t : node) | ONotFound | OResourceError.
Definition fsOpen (t : node) (p : path) (m : omode) : ores :=
  let create := match setbytes t p [] with FOk t' => OOk t' | FErr ResourceNotFound => ONotFound | FErr _ => OResourceError end in
  match m with
  | MRead => match getbytes t p with FOk _ => OOk t | FErr ResourceNotFound => ONotFound | FErr _ => OResourceError end
  | MWrite => create
  | MAppend => match getbytes t p with FOk _ => OOk t | _ => create end
  | MExclusive => if existsAt t p then OResourceError else create
  end.

(** what a client gets: a file object, None, or an exception that is returned *)
Inductive handle := HFile (p : path) | HNone | HError.
(** __init__.py 354-371 *)
Definition getReadFileForPath (t : node) (p : str) : res handle :=
  do cs <- components p;
  match fsOpen t cs MRead with
  | OOk _ => Ok (HFile cs)
  | ONotFound => Ok HNone
  | OResourceError => Err FSError
  end.
(** __init__.py 1017-1042.  Line 1040 returns the exception instead of raising it. *)
Definition getFileObjectForPath (p : str) (m : omode) : M handle :=
  let! cs := lift (components p) in
  let! t := getTree in
  match fsOpen t cs m with
  | OOk t' => let! _ := (match m with MRead => ret tt | _ => change (OWrite cs) t' end) in ret (HFile cs)
  | ONotFound =>
    match m with
    | MRead => ret HNone
    | _ =>
      let! ps := lift (components (dirname p)) in
      match makedirs t ps with
      | FErr _ => raise FSError
      | FOk t1 =>
        let! _ := change (OMakedir ps) t1 in
        match fsOpen t1 cs m with
        | OOk t2 => let! _ := change (OWrite cs) t2 in ret (HFile cs)
        | _ => raise FSError
        end
      end
    end
  | OResourceError => ret HError
  end.
(** reading the whole file; writing data at the end of it *)
Definition hread (t : node) (h : handle) : option bytes := match h with HFile p => fileAt t p | _ => None end.
Definition hwrite (h : handle) (data : bytes) : M unit :=
  match h with
  | HFile p =>
    let! t := getTree in
    match getbytes t p with
    | FOk old => fsSetbytes p (old ++ data)
    | FErr _ => raise FSError
    end
  | _ => raise AttributeError
  end.
(** text mode, __init__.py 369 and 1027, 1037: the file object decodes and encodes; a
    text that can not be encoded is refused before anything is written *)
Definition hreadText (t : node) (h : handle) : res str :=
  match hread t h with Some b => utf8Decode b | None => Err AttributeError end.
Definition hwriteText (h : handle) (text : str) : M unit :=
  match h with
  | HFile _ => let! b := lift (utf8Encode text) in hwrite h b
  | _ => raise AttributeError
  end.
