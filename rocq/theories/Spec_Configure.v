(** Vocabulary for configuring and building the library more than once: the options of cmake, the events that change a source tree, and the
    fetching of the Unicode Character Database. *)
From Coq Require Import String.
From Verif Require Import Base Spec_TgMain.
Open Scope string_scope.

(** the -D options of one call of cmake: LIBUNICODE_UCD_VERSION, LIBUNICODE_UCD_BASE_DIR, LIBUNICODE_UCD_DIR *)
Record options := Opts { o_version : option string; o_base : option string; o_dir : option string }.
Definition no_options := Opts None None None.
(** the value given last in a sequence of calls *)
Fixpoint last_given (f : options -> option string) (l : list options) : option string :=
  match l with [] => None | o :: r => match last_given f r with Some x => Some x | None => f o end end.
Definition or_else (o : option string) (d : string) : string := match o with Some x => x | None => d end.

(** a database: the files of a directory *)
Definition files := string -> option (list N).
(** what happens to a source tree.  [Make b o t]: cmake is called in build directory [b] with options [o], then the library is built, at time
    [t]; [Edit ts]: the generator's sources now carry the times [ts]; [Delete f]: a generated file is deleted; [Replace dir db]: the database
    in directory [dir] is replaced by [db]. *)
Inductive event := Make (b : nat) (o : options) (t : N) | Edit (ts : list N) | Delete (f : string) | Replace (dir : string) (db : files).
(** the calls of cmake in build directory [b], in order *)
Fixpoint calls_in (b : nat) (h : list event) : list options :=
  match h with [] => [] | Make b' o _ :: r => if Nat.eqb b' b then o :: calls_in b r else calls_in b r | _ :: r => calls_in b r end.

(** fetching: the archive file and the directory it is unpacked to *)
Record fetched := Fetched { archive : option (list N); unpacked : option files }.
Definition nothing_fetched := Fetched None None.
Definition no_files : files := fun _ => None.
(** bytes on their way to the files of a directory *)
Definition unpack1 (d : files) (a : action) : files :=
  match a with
  | Create f => fun x => if x =? f then Some [] else d x
  | Put f b => fun x => if x =? f then match d f with Some c => Some (List.app c b) | None => None end else d x
  end.
Definition unpack (l : list action) : files := fold_left unpack1 l no_files.
(** the directory named by the options of the calls so far: the one given last with LIBUNICODE_UCD_DIR; without any, the one for the version
    and base directory of the first call *)
Definition dir_of (src : string) (calls : list options) : string :=
  match last_given o_dir calls with
  | Some d => d
  | None => let first := hd no_options calls in or_else (o_base first) (src ++ "/_ucd") ++ "/ucd-" ++ or_else (o_version first) "17.0.0"
  end.
(** all nine files are there and none is older than a source of the generator *)
Definition up_to_date (sources : list N) (d : stamped) : Prop :=
  forall f, In f nine -> exists c t, d f = Some (c, t) /\ forall s, In s sources -> (s <= t)%N.
