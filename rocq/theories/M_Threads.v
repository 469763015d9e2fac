(** Model of the run-time dispatch under concurrency: convert.cpp:12-34, scan.cpp:65-79.  Each of the three functions keeps the
    detected width in a function-local static, initialised by the first caller under the guard the C++ implementation provides.
    One step of a thread is one access to shared memory; the implementation itself (which only touches the caller's buffers and
    constant data) is one step.  Modelled for a sequentially consistent memory; [C124_no_race] is what makes that sound for the C++
    memory model.  Not modelled: compilation with -fno-threadsafe-statics. *)
From Verif Require Import Base M_AsciiScan M_Convert Spec_Simd M_Simd Spec_Threads.
Open Scope N_scope.

(** convert.cpp:15, convert.cpp:27, scan.cpp:68: the three statics. *)
Inductive slot := SimdSize32 | SimdSize16 | SimdSizeScan.
Definition slot_eqb (a b : slot) : bool :=
  match a, b with SimdSize32, SimdSize32 | SimdSize16, SimdSize16 | SimdSizeScan, SimdSizeScan => true | _, _ => false end.
Definition slot_of (k : call) : slot :=
  match k with ToUtf32 _ _ => SimdSize32 | ToUtf16 _ _ => SimdSize16 | ScanAscii _ _ => SimdSizeScan end.

(** [stmt.dcl]/4: not yet initialised; being initialised by a thread; initialised. *)
Inductive guard := Uninit | Running | Done.

(** Where a thread is inside the call it is making. *)
Inductive pc :=
| Outside                (* not inside a call *)
| AtGuard                (* convert.cpp:15 / :27, scan.cpp:68: before the declaration of the static *)
| AtProbe                (* evaluating max_simd_size() *)
| AtStore (v : N)        (* writing the static *)
| AtPublish              (* marking it initialised *)
| AtTest512              (* convert.cpp:16 / :28, scan.cpp:69: simdSize == 512 *)
| AtTest256              (* convert.cpp:18 / :30, scan.cpp:73: simdSize == 256 *)
| AtBody (w : width).    (* running the selected implementation *)

Record thread := { todo : list call; at_ : pc; results : list outcome }.
Record shared := { guards : slot -> guard; cells : slot -> N; probes : slot -> nat }.   (* [probes]: history, how often max_simd_size ran *)
Record state := { mem : shared; threads : nat -> thread }.

Definition upd {A} (f : slot -> A) (k : slot) (v : A) : slot -> A := fun x => if slot_eqb x k then v else f x.

(** The translation unit a function is compiled in: convert.cpp and scan.cpp (see [unit_convert], [unit_scan] in M_Simd). *)
Definition body (m : machine) (c : simd_config) (uchar : bool) (w : width) (k : call) : outcome :=
  let wide {A} (r : Res A) := match w with W512 => run_unit m unit_512 r | W256 => run_unit m unit_256 r | W128 => r end in
  match k with
  | ToUtf32 i o => Converted (run_unit m unit_convert (wide (convert_utf8_to_utf32_simd false (impl_of c w) i o)))
  | ToUtf16 i o => Converted (run_unit m unit_convert (wide (convert_utf8_to_utf16_simd false (impl_of c w) i o)))
  | ScanAscii t l => Scanned (run_unit m unit_scan (wide (scan_for_text_ascii false uchar (impl_of c w) t l)))
  end.

(** One step of a thread making the call [k], with [rest] still to come; [None]: the thread cannot step (it waits, or is finished).
    convert.cpp:12-34, scan.cpp:65-79, simd_detector.cpp:38-176. *)
Definition thread_step (m : machine) (c : simd_config) (uchar : bool) (sh : shared) (t : thread) : option (shared * thread) :=
  match todo t with
  | [] => None
  | k :: rest =>
      let s := slot_of k in
      let goto p := {| todo := todo t; at_ := p; results := results t |} in
      match at_ t with
      | Outside => Some (sh, goto AtGuard)
      | AtGuard =>
          match guards sh s with
          | Uninit => Some ({| guards := upd (guards sh) s Running; cells := cells sh; probes := probes sh |}, goto AtProbe)
          | Running => None
          | Done => Some (sh, goto AtTest512)
          end
      | AtProbe =>
          match max_simd_size m with
          | Ok v => Some ({| guards := guards sh; cells := cells sh; probes := upd (probes sh) s (S (probes sh s)) |}, goto (AtStore v))
          | _ => None
          end
      | AtStore v => Some ({| guards := guards sh; cells := upd (cells sh) s v; probes := probes sh |}, goto AtPublish)
      | AtPublish => Some ({| guards := upd (guards sh) s Done; cells := cells sh; probes := probes sh |}, goto AtTest512)
      | AtTest512 => Some (sh, goto (if cells sh s =? 512 then AtBody W512 else AtTest256))
      | AtTest256 => Some (sh, goto (if cells sh s =? 256 then AtBody W256 else AtBody W128))
      | AtBody w => Some (sh, {| todo := rest; at_ := Outside; results := results t ++ [body m c uchar w k] |})
      end
  end.

Definition step (m : machine) (c : simd_config) (uchar : bool) (i : nat) (s s' : state) : Prop :=
  exists sh t, thread_step m c uchar (mem s) (threads s i) = Some (sh, t) /\
    s' = {| mem := sh; threads := fun j => if Nat.eqb j i then t else threads s j |}.

(** Program start: statics are zero-initialised and not yet constructed; thread [i] will make the calls [calls i]. *)
Definition start (calls : nat -> list call) : state :=
  {| mem := {| guards := fun _ => Uninit; cells := fun _ => 0; probes := fun _ => O |};
     threads := fun i => {| todo := calls i; at_ := Outside; results := [] |} |}.

(** The plain memory access a thread makes next. *)
Definition next_access (t : thread) : access slot :=
  match todo t with
  | [] => NoAccess
  | k :: _ => match at_ t with
              | AtStore _ => Writes (slot_of k)
              | AtTest512 | AtTest256 => Reads (slot_of k)
              | _ => NoAccess
              end
  end.
