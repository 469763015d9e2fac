(** Model of the configuration: the cache variables of /repo/CMakeLists.txt:91-97, the fetching of the database and the custom command of
    /repo/src/libunicode/CMakeLists.txt:5-13, 71-85 and 117-149 (the reuse decision of 17-59 is in M_TgMain).  What CMake itself does is
    modelled from its manual: set(... CACHE ...) keeps a value that is already in the cache, -D puts one there; file(DOWNLOAD ... EXPECTED_MD5)
    writes the file first and fails afterwards if the sum differs, leaving the file; file(ARCHIVE_EXTRACT) creates the directory first. *)
From Coq Require Import String.
From Verif Require Import Base Spec_TgMain Spec_Configure M_TgMain.
Open Scope string_scope.

(** ** The cache of a build directory *)
Record cache := Cache { c_version : option string; c_base : option string; c_dir : option string }.
Definition empty_cache := Cache None None None.
(** -D VAR=value overrides what is cached *)
Definition given (o c : option string) : option string := match o with Some x => Some x | None => c end.
(** set(VAR default CACHE ...) *)
Definition set_cache (v : option string) (d : string) : string := match v with Some x => x | None => d end.
(** CMakeLists.txt:91, 92, 97; [src] is CMAKE_CURRENT_SOURCE_DIR *)
Definition configure (src : string) (o : options) (c : cache) : cache :=
  let v := set_cache (given (o_version o) (c_version c)) "17.0.0" in
  let base := set_cache (given (o_base o) (c_base c)) (src ++ "/_ucd") in
  let dir := set_cache (given (o_dir o) (c_dir c)) (base ++ "/ucd-" ++ v) in
  Cache (Some v) (Some base) (Some dir).

(** ** A source tree shared by several build directories.  The databases are on the disk already ([t_db]; fetching is modelled below). *)
Record tree := Tree { t_files : stamped; t_sources : list N; t_db : string -> files; t_caches : nat -> cache }.
(** src/libunicode/CMakeLists.txt:127-149: if the generator is needed the custom command writes all nine files from LIBUNICODE_UCD_DIR; its
    only dependency is the generator.  [gen db f]: the text of file [f] generated from [db] (the generator modelled elsewhere). *)
Definition make (src : string) (gen : files -> string -> list N) (b : nat) (o : options) (now : N) (t : tree) : tree :=
  let c := configure src o (t_caches t b) in
  let fs := if needs_tablegen false (map Some (t_sources t)) (t_files t)
            then fun f => if existsb (String.eqb f) generated_files then Some (gen (t_db t (set_cache (c_dir c) "")) f, now) else t_files t f
            else t_files t in
  Tree fs (t_sources t) (t_db t) (fun k => if Nat.eqb k b then c else t_caches t k).
Definition happens (src : string) (gen : files -> string -> list N) (t : tree) (e : event) : tree :=
  match e with
  | Make b o now => make src gen b o now t
  | Edit ts => Tree (t_files t) ts (t_db t) (t_caches t)
  | Delete f => Tree (fun x => if x =? f then None else t_files t x) (t_sources t) (t_db t) (t_caches t)
  | Replace dir db => Tree (t_files t) (t_sources t) (fun x => if x =? dir then db else t_db t x) (t_caches t)
  end.
Definition history (src : string) (gen : files -> string -> list N) (t : tree) (h : list event) : tree := fold_left (happens src gen) h t.

(** ** Fetching, src/libunicode/CMakeLists.txt:78-84, when the generated files are not reused.  [sum_ok]: the MD5 test; [contents z]: the files
    in archive [z] and whether the tool reports success.  The bytes reach the directory in any order ([l]); the process may be cut off at any
    point ([done], a beginning of [l]).  [true]: the configuration got past this step. *)
Definition unpacking (fs : list (string * list N)) (l : list action) : Prop := forall f, unpack l f = option_map snd (find (fun e => fst e =? f) fs).
Inductive attempt (sum_ok : list N -> bool) (contents : list N -> list (string * list N) * bool) : fetched -> fetched -> bool -> Prop :=
| Killed w : attempt sum_ok contents w w false
| Skipped z d : attempt sum_ok contents (Fetched z (Some d)) (Fetched z (Some d)) true
| Download_stopped b : attempt sum_ok contents (Fetched None None) (Fetched (Some b) None) false
| Unpacked_download z l done todo p : sum_ok z = true -> unpacking (fst (contents z)) l -> l = (done ++ todo)%list ->
    (p = true -> todo = [] /\ snd (contents z) = true) -> attempt sum_ok contents (Fetched None None) (Fetched (Some z) (Some (unpack done))) p
| Unpacked_archive z l done todo p : unpacking (fst (contents z)) l -> l = (done ++ todo)%list ->
    (p = true -> todo = [] /\ snd (contents z) = true) -> attempt sum_ok contents (Fetched (Some z) None) (Fetched (Some z) (Some (unpack done))) p.
Inductive attempts (sum_ok : list N -> bool) (contents : list N -> list (string * list N) * bool) : fetched -> fetched -> list bool -> Prop :=
| No_attempt w : attempts sum_ok contents w w []
| Next_attempt w w1 w2 p ps : attempt sum_ok contents w w1 p -> attempts sum_ok contents w1 w2 ps -> attempts sum_ok contents w w2 (p :: ps).
