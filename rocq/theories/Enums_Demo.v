(** A database for the theorems of T_Enums.v, with boolean checks of their hypotheses. *)
From Coq Require Import Ascii String Permutation Sorted.
From Verif Require Import Base M_TableGen M_PropGen M_UcdApi M_Enums Spec_TableGen Spec_PropGen Spec_UcdApi Spec_Enums
  P_TableGen P_TableGen2 P_PropGen P_PropGen9 P_UcdApi5 P_Enums TableGen_Demo PropGen_Demo UcdApi_Demo.
Open Scope N_scope.

Definition props_of (f : list (fline stline)) : list str := map st_prop (data_of f).
Lemma gives_prop f c w : gives f c w -> In w (props_of f).
Proof. intros (l & Hl & _ & <-). apply in_map. now apply PropGen_Demo.data_in. Qed.
Definition same_idb (s t : str) : bool := str_eqb (identifier s) (identifier t).
Lemma same_idb_ok s t : same_id s t <-> same_idb s t = true.
Proof. unfold same_id, same_idb. now rewrite str_eqb_eq. Qed.
Definition injb (l : list str) : bool := forallb (fun s => forallb (fun t => negb (same_idb s t) || str_eqb s t) l) l.
Lemma injb_ok l s t : injb l = true -> In s l -> In t l -> same_id s t -> s = t.
Proof.
  intros H Hs Ht E. unfold injb in H. rewrite forallb_forall in H. specialize (H s Hs). rewrite forallb_forall in H. specialize (H t Ht).
  apply same_idb_ok in E. rewrite E in H. now apply str_eqb_eq.
Qed.
Definition differ_from (l : list str) (n : string) : bool := forallb (fun s => negb (same_idb s (lit n))) l.
Lemma differ_from_ok l n s : differ_from l n = true -> In s l -> ~ same_id s (lit n).
Proof. intros H Hs E. unfold differ_from in H. rewrite forallb_forall in H. specialize (H s Hs). apply same_idb_ok in E. rewrite E in H. discriminate. Qed.
Definition alias_injb (l : list (str * str)) : bool := forallb (fun e => forallb (fun e' => negb (same_idb (snd e) (snd e')) || str_eqb (fst e) (fst e')) l) l.
Definition distinct_namesb (F : ucd_files) (B : list (fline stline)) : bool :=
  forallb (fun s => alias_injb (aliases_of (f_pva F) (sec_name s))) (f_pva F) &&
  differ_from (props_of (f_scripts F)) "Invalid" && differ_from (props_of (f_scripts F)) "Unknown" && injb (lit "Common" :: props_of (f_scripts F)) &&
  differ_from (map snd (aliases_of (f_pva F) GC)) "Unspecified" && differ_from (map snd (aliases_of (f_pva F) GCB)) "Undefined" &&
  differ_from (props_of B) "Unspecified" && injb (props_of B) && injb (props_of (f_core F)) &&
  forallb (fun s => negb (existsb (str_eqb (sec_name s)) (map lit ["Plane"; "Core_Property"; "EastAsianWidth"]%string))) (f_pva F).
Lemma distinct_namesb_ok F B : distinct_namesb F B = true -> distinct_names F B.
Proof.
  unfold distinct_namesb. intros H. do 9 (apply andb_true_iff in H; destruct H as [H ?]).
  split. { intros prop a a' v v' _ Ha Ha' E. pose proof Ha as (s & l & Hs & <- & _). rewrite forallb_forall in H. specialize (H s Hs). unfold alias_injb in H.
           apply aliases_in in Ha. apply aliases_in in Ha'. rewrite forallb_forall in H. specialize (H _ Ha). rewrite forallb_forall in H. specialize (H _ Ha'). cbn [fst snd] in H.
           apply same_idb_ok in E. rewrite E in H. now apply str_eqb_eq. }
  split. { intros c w Hw. apply gives_prop in Hw. split; [now apply (differ_from_ok _ _ _ H8)|]. split; [now apply (differ_from_ok _ _ _ H7)|].
           intros E. apply (injb_ok _ _ _ H6); [right; exact Hw|left; reflexivity|exact E]. }
  split. { intros c w c' w' Hw Hw' E. apply gives_prop in Hw. apply gives_prop in Hw'. apply (injb_ok _ _ _ H6); [right; exact Hw|right; exact Hw'|exact E]. }
  split. { intros a v Ha. apply aliases_in in Ha. apply (differ_from_ok _ _ _ H5). apply (in_map snd _ _ Ha). }
  split. { intros a v Ha. apply aliases_in in Ha. apply (differ_from_ok _ _ _ H4). apply (in_map snd _ _ Ha). }
  split. { intros l Hl. apply (differ_from_ok _ _ _ H3). apply in_map. now apply PropGen_Demo.data_in. }
  split. { intros l l' Hl Hl' E. apply (injb_ok _ _ _ H2); [apply in_map; now apply PropGen_Demo.data_in|apply in_map; now apply PropGen_Demo.data_in|exact E]. }
  split. { intros c w c' w' Hw Hw' E. apply gives_prop in Hw. apply gives_prop in Hw'. exact (injb_ok _ _ _ H1 Hw Hw' E). }
  intros s Hs Hin. rewrite forallb_forall in H0. specialize (H0 s Hs). apply negb_true_iff in H0.
  assert (E : existsb (str_eqb (sec_name s)) (map lit ["Plane"; "Core_Property"; "EastAsianWidth"]%string) = true) by (apply existsb_exists; exists (sec_name s); split; [exact Hin|apply str_eqb_refl]).
  congruence.
Qed.
Definition plain_namesb (F : ucd_files) : bool :=
  forallb (withoutb 45) (props_of (f_scripts F)) && forallb (withoutb 45) (props_of (f_core F)) &&
  forallb (fun prop => forallb (fun e => withoutb 45 (snd e)) (aliases_of (f_pva F) prop)) [GC; GCB; EAW; INCB; WB].
Lemma plain_namesb_ok F : plain_namesb F = true -> plain_names F.
Proof.
  unfold plain_namesb. intros H. do 2 (apply andb_true_iff in H; destruct H as [H ?]). rewrite forallb_forall in H, H0, H1. split; [|split].
  - intros c w Hw. apply withoutb_ok, H. now apply gives_prop in Hw.
  - intros c w Hw. apply withoutb_ok, H1. now apply gives_prop in Hw.
  - intros prop a v Hin Ha. specialize (H0 prop Hin). rewrite forallb_forall in H0. apply aliases_in in Ha. apply withoutb_ok. exact (H0 _ Ha).
Qed.

Local Open Scope string_scope.
Definition F3_demo : ucd_files := let F := F2_demo in
  mkF (f_pre F) (f_pva F ++ [mkSec (lit "Script") (lit "sc") [Blank []; pvl "sc" 1 "Beng" 34 "Bengali" ""; pvl "sc" 1 "Deva" 34 "Devanagari" ""; pvl "sc" 1 "Gran" 34 "Grantha" "";
         pvl "sc" 1 "Knda" 34 "Kannada" ""; pvl "sc" 1 "Latn" 34 "Latin" ""; pvl "sc" 1 "Zinh" 34 "Inherited" "                        ; Qaai"; pvl "sc" 1 "Zyyy" 34 "Common" ""; Blank []]])
      (f_scripts F ++ [stl (Span 0x900 0x902) 4 "Devanagari" 1 " Mn   [3] DEVANAGARI SIGN INVERTED CANDRABINDU..DEVANAGARI SIGN ANUSVARA"; stl (One 0x980) 10 "Bengali" 1 " Lo       BENGALI ANJI";
         stl (Span 0x11300 0x11301) 2 "Grantha" 1 " Mn   [2] GRANTHA SIGN COMBINING ANUSVARA ABOVE..GRANTHA SIGN CANDRABINDU"; stl (One 0xC80) 10 "Kannada" 1 " Lo       KANNADA SIGN SPACING CANDRABINDU"])
      (f_gc F) (f_core F) (f_isc F) (f_evs F) (f_age F) (f_gcb F) (f_wb F) (f_eaw F) (f_emoji F) (f_hst F).
Local Close Scope string_scope.
Lemma F3_demo_ok : files_ok F3_demo.
Proof. apply files_okb_ok. vm_compute. reflexivity. Qed.
Lemma F3_distinct : distinct_names F3_demo blocks_demo.
Proof. apply distinct_namesb_ok. vm_compute. reflexivity. Qed.
Lemma F3_plain : plain_names F3_demo.
Proof. apply plain_namesb_ok. vm_compute. reflexivity. Qed.
Lemma blocks_demo_ok : lines_ok st_ok blocks_demo.
Proof. apply (all_data_ok st_ok st_okb blocks_demo st_okb_ok). vm_compute. reflexivity. Qed.
Definition d3_demo : pdata := match sample_data true F3_demo with Some d => d | None => mkPd [] [] [] [] [] [] [] [] [] [] [] [] [] end.
Lemma d3_demo_parsed : parsed true F3_demo d3_demo.
Proof. apply sample_parsed. vm_compute. reflexivity. Qed.
Definition enums_demo : list enum_def :=
  match collect_enums (pd_pva d3_demo) (pd_core d3_demo) (pd_gc d3_demo) (pd_scripts d3_demo) (load_blocks (file_text st_text true blocks_demo)) with Some l => l | None => [] end.
Lemma enums_demo_ok : generated_enums true F3_demo blocks_demo d3_demo enums_demo.
Proof. split; [exact d3_demo_parsed|]. vm_compute. reflexivity. Qed.
Lemma F3_age : exists a v, alias (f_pva F3_demo) AGE a v.
Proof. exists (lit "1.1"), (lit "V1_1"). apply aliases_in. vm_compute. tauto. Qed.
Lemma F3_uses : uses_names F3_demo sce_demo.
Proof.
  split. { exists [], [9], (tl (f_gcb F3_demo)). split; [reflexivity|]. split; [reflexivity|]. split; [constructor; [right; left; reflexivity|constructor]|]. split; [apply wordb_ok; vm_compute; reflexivity|].
           intros q Hq. cbn in Hq. repeat (destruct Hq as [Hq|Hq]; [discriminate Hq|]). destruct Hq. }
  split. { intros c w Hw. apply gives_prop in Hw. apply has_valueb_ok. revert w Hw. apply Forall_forall. constructor; [vm_compute; reflexivity|constructor; [vm_compute; reflexivity|constructor]]. }
  assert (Hl : forall l, has sce_demo l -> exists ws, sce_line l ws /\ forall w, In w ws -> In w (map lit ["Beng"; "Deva"; "Gran"; "Knda"]%string)).
  { intros l Hl. apply PropGen_Demo.data_in in Hl. cbn [sce_demo data_of flat_map app stl] in Hl.
    destruct Hl as [<-|[<-|[<-|[<-|[]]]]].
    - exists [lit "Deva"]. split; [apply sce_lineb_ok; vm_compute; reflexivity|intros w [<-|[]]; cbn [map In]; tauto].
    - exists (map lit ["Beng"; "Deva"; "Gran"; "Knda"]%string). split; [apply sce_lineb_ok; vm_compute; reflexivity|auto].
    - exists [lit "Beng"]. split; [apply sce_lineb_ok; vm_compute; reflexivity|intros w [<-|[]]; cbn [map In]; tauto].
    - exists (map lit ["Gran"; "Deva"; "Knda"; "Beng"]%string). split; [apply sce_lineb_ok; vm_compute; reflexivity|]. intros w Hw. cbn [map In] in *. tauto. }
  split.
  - intros l Hin. destruct l as [l|s|s]; [|exact I|]. 
    + destruct (Hl l Hin) as (ws & H & _). exists ws. exact H.
    + cbn in Hin. repeat (destruct Hin as [Hin|Hin]; [discriminate Hin|]). destruct Hin.
  - intros c ws w (l & Hin & _ & Hws) Hw. destruct (Hl l Hin) as (ws' & Hws' & K). assert (ws = ws') as -> by (rewrite <- (sce_tokens l ws Hws); apply sce_tokens; exact Hws').
    apply K in Hw. cbn [map In] in Hw. destruct Hw as [<-|[<-|[<-|[<-|[]]]]].
    + exists (lit "Bengali"), 0x980. split; [apply aliases_in; vm_compute; tauto|]. eexists. split; [apply PropGen_Demo.data_in; right; right; right; right; left; reflexivity|split; [reflexivity|reflexivity]].
    + exists (lit "Devanagari"), 0x900. split; [apply aliases_in; vm_compute; tauto|]. eexists. split; [apply PropGen_Demo.data_in; right; right; right; left; reflexivity|split; [split; [vm_compute; discriminate|vm_compute; discriminate]|reflexivity]].
    + exists (lit "Grantha"), 0x11300. split; [apply aliases_in; vm_compute; tauto|]. eexists. split; [apply PropGen_Demo.data_in; right; right; right; right; right; left; reflexivity|split; [split; [vm_compute; discriminate|vm_compute; discriminate]|reflexivity]].
    + exists (lit "Kannada"), 0xC80. split; [apply aliases_in; vm_compute; tauto|]. eexists. split; [apply PropGen_Demo.data_in; right; right; right; right; right; right; left; reflexivity|split; [reflexivity|reflexivity]].
Qed.
