(** A model of the part of the file system the program uses, of FsCreator::PrepareDirectory
    (/repo/src/codegen/fs-creator.cpp 96-160) and of FileWriter::Flush
    (/repo/src/codegen/filewriter.cpp 24-36).

    Simplifications: no symbolic links; ".." removes the component before it, also when that
    component does not exist; only directories and regular files, directories can always be created
    when the parent exists; whether a file may be opened for writing is given by [fs_deny]. *)

From Coq Require Import ZArith NArith List String Ascii Bool.
From Verif Require Import Base Formatter Settings.
Import ListNotations.
Open Scope string_scope.

Inductive node := Dir | File (text : string).

(** a path is the list of its components; absolute paths start with "/" *)
Definition path := list string.

Fixpoint comps_from (rcur : string) (s : string) : list string :=
  let this := if String.eqb rcur "" || String.eqb rcur "." then [] else [rev_string rcur] in
  match s with
  | EmptyString => this
  | String c r =>
      if Ascii.eqb c "/" then (this ++ comps_from "" r)%list
      else comps_from (String c rcur) r
  end.

(** ".." leads to the parent directory, the parent of the root is the root; the list is the reversed path *)
Definition up (racc : list string) : list string :=
  match racc with
  | [] => [".."]
  | a :: r => if String.eqb a "/" then racc else if String.eqb a ".." then ".." :: racc else r
  end.
Definition step (racc : list string) (c : string) : list string :=
  if String.eqb c ".." then up racc else c :: racc.

Definition norm (s : string) : path :=
  match s with
  | String c _ => rev (fold_left step (comps_from "" s) (if Ascii.eqb c "/" then ["/"] else []))
  | EmptyString => []
  end.

Definition path_eqb (a b : path) : bool :=
  if list_eq_dec string_dec a b then true else false.

Record fs := { fs_get : path -> option node; fs_deny : path -> bool }.

(** the root and the working directory always exist *)
Definition look (f : fs) (p : path) : option node :=
  match p with
  | [] => Some Dir
  | ["/"] => Some Dir
  | _ => fs_get f p
  end.

Definition put (f : fs) (p : path) (n : node) : fs :=
  {| fs_get := fun q => if path_eqb q p then Some n else fs_get f q; fs_deny := fs_deny f |}.

Definition parent (p : path) : path := removelast p.

Definition is_dir (f : fs) (p : path) : bool :=
  match look f p with Some Dir => true | _ => false end.

(** stat(path) == 0 *)
Definition exists_path (f : fs) (s : string) : bool :=
  negb (String.eqb s "") && match look f (norm s) with Some _ => true | None => false end.

(** std::filesystem::create_directory *)
Definition create_directory (f : fs) (s : string) : res (fs * bool) :=
  if String.eqb s "" then Throw "filesystem_error"
  else
    match look f (norm s) with
    | Some Dir => Ok (f, false)
    | Some (File _) => Throw "filesystem_error"
    | None => if is_dir f (parent (norm s)) then Ok (put f (norm s) Dir, true)
              else Throw "filesystem_error"
    end.

(** "%03d" *)
Definition d03 (n : nat) : string := pad_left 3 "0" (dec (N.of_nat n)).

(** the loop over the numbered directories, fs-creator.cpp 124-150 *)
Fixpoint numbered_loop (fuel : nat) (dirnum : nat) (f : fs) (base sep : string)
  : res (fs * bool) :=
  match fuel with
  | O => Ok (f, false)
  | S k =>
      let dir := base ++ sep ++ d03 dirnum in
      if negb (exists_path f dir) then
        do r <- create_directory f dir;
        let '(f', made) := r in
        if made then Ok (f', true) else numbered_loop k (S dirnum) f' base sep
      else if is_dir f (norm dir) then numbered_loop k (S dirnum) f base sep
      else
        do r <- create_directory f dir;
        let '(f', made) := r in
        if made then Ok (f', false) else numbered_loop k (S dirnum) f' base sep
  end.

(** PrepareDirectory, fs-creator.cpp 96-160 *)
Definition prepare_directory (f : fs) (s : settings) (rw : bool) : res (fs * bool) :=
  let d := st_f s in
  let base := f_dir d in
  do r <- (if rw then
             if exists_path f base then Ok (f, true) else create_directory f base
           else
             match last_char base with
             | None => UB "back() of an empty string"
             | Some c => numbered_loop 1000 0 f base (if Ascii.eqb c "/" then "" else "/")
             end);
  let '(f, ret) := r in
  do a <- create_directory f (f_libdir d);
  do a <- create_directory (fst a) (f_usrdir d);
  do a <- create_directory (fst a) (f_incdir d);
  do a <- create_directory (fst a) (f_confdir d);
  do a <- create_directory (fst a) (f_utildir d);
  Ok (fst a, ret).

(** std::ofstream::open(path, out) succeeds *)
Definition openable (f : fs) (s : string) : bool :=
  negb (String.eqb s "")
  && is_dir f (parent (norm s))
  && match look f (norm s) with Some Dir => false | _ => true end
  && negb (fs_deny f (norm s)).

(** Appending [text] and Flush(fpath), filewriter.cpp 29-36: when the file cannot be opened the
    text stays in the stream. *)
Definition flush_file (st : fs * string) (f : string * string) : fs * string :=
  let '(s, pending) := st in
  let '(p, t) := f in
  if openable s p then (put s (norm p) (File (pending ++ t)), "") else (s, pending ++ t).

Definition flush_files (st : fs * string) (l : list (string * string)) : fs * string :=
  fold_left flush_file l st.
