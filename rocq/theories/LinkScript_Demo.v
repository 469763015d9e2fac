(** Boolean checks of [script_files_ok] and [script_facts], and extracts of the files that meet them. *)
From Coq Require Import String.
From Verif Require Import Base M_TableGen M_PropGen M_UcdApi Spec_TableGen Spec_PropGen Spec_UcdApi Spec_LinkScript P_TableGen P_TableGen2 P_UcdApi P_UcdApi5
  TableGen_Demo PropGen_Demo UcdApi_Demo.
Open Scope N_scope.
Definition wordsof (l : stline) : list str := M_UcdApi.tokens [] (st_prop l).
Definition real_scriptb (n : str) : bool := negb (str_eqb n (lit "Common")) && negb (str_eqb n (lit "Inherited")) && negb (str_eqb n (lit "Invalid")).
Definition sf_okb (F : script_files) : bool :=
  all_data word_lineb (sf_scripts F) && separateb (sf_scripts F) && UcdApi_Demo.nonemptyb (sf_scripts F) && pva_okb (sf_aliases F) &&
  all_data (fun l => sce_lineb l (wordsof l) && (length (wordsof l) <=? 31)%nat &&
    forallb (fun w => existsb (fun e => str_eqb (fst e) w) (aliases_of (sf_aliases F) SC)) (wordsof l)) (sf_extensions F) &&
  separateb (sf_extensions F) && UcdApi_Demo.nonemptyb (sf_extensions F) &&
  forallb (fun l => negb (str_eqb (st_prop l) (lit "Invalid"))) (data (sf_scripts F)) &&
  forallb (fun l => forallb (fun w => forallb (fun e => negb (str_eqb (fst e) w) || real_scriptb (snd e)) (aliases_of (sf_aliases F) SC)) (wordsof l)) (data (sf_extensions F)).
Lemma sf_okb_ok F : sf_okb F = true -> script_files_ok F /\ script_facts F.
Proof.
  unfold sf_okb. rewrite !andb_true_iff. intros ((((((((H1 & H2) & H3) & H4) & H5) & H6) & H7) & H8) & H9).
  assert (X : forall l, has (sf_extensions F) l -> sce_line l (wordsof l) /\ (length (wordsof l) <= 31)%nat /\ (forall w, In w (wordsof l) -> exists v, alias (sf_aliases F) SC w v)).
  { intros l Hl. pose proof (all_data_ok (fun l => sce_line l (wordsof l) /\ (length (wordsof l) <= 31)%nat /\ (forall w, In w (wordsof l) -> exists v, alias (sf_aliases F) SC w v)) (fun l => sce_lineb l (wordsof l) && (length (wordsof l) <=? 31)%nat &&
      forallb (fun w => existsb (fun e => str_eqb (fst e) w) (aliases_of (sf_aliases F) SC)) (wordsof l)) (sf_extensions F)) as A.
    apply (fun a b => A a b (Data l) Hl); [|exact H5].
    intros a. rewrite !andb_true_iff. intros ((A1 & A2) & A3). split; [now apply sce_lineb_ok|]. split; [now apply Nat.leb_le|]. intros w Hw.
    rewrite forallb_forall in A3. specialize (A3 w Hw). apply existsb_exists in A3 as ([a0 v] & Ha & E). apply str_eqb_eq in E. cbn [fst] in E. subst a0. exists v. now apply aliases_in. }
  assert (L : forall c ws, lists (sf_extensions F) c ws -> exists l, has (sf_extensions F) l /\ ws = wordsof l).
  { intros c ws (l & Hl & _ & Hs). exists l. split; [exact Hl|]. symmetry. exact (sce_tokens l ws Hs). }
  split.
  - split; [apply (all_data_ok _ _ _ word_lineb_ok), H1|]. split; [now apply separateb_ok|]. split; [now apply UcdApi_Demo.nonemptyb_ok|].
    split; [now apply pva_okb_ok|]. split.
    { intros l Hl. destruct l as [a|s|s]; [exists (wordsof a); apply (X a Hl)|exact I|].
      pose proof (all_data_ok (fun _ => True) _ (sf_extensions F) (fun _ _ => I) H5 (Blank s) Hl) as B. exact B. }
    split; [now apply separateb_ok|]. split; [now apply UcdApi_Demo.nonemptyb_ok|].
    intros c ws w Hc Hw. destruct (L c ws Hc) as (l & Hl & ->). apply (X l Hl); exact Hw.
  - split; [|split].
    + intros c n (l & Hl & _ & <-) E. apply data_in in Hl. rewrite forallb_forall in H8. specialize (H8 l Hl). rewrite E in H8. discriminate.
    + intros c ws Hc. destruct (L c ws Hc) as (l & Hl & ->). apply (X l Hl).
    + intros c ws w n Hc Hw Ha. destruct (L c ws Hc) as (l & Hl & ->). apply data_in in Hl. rewrite forallb_forall in H9. specialize (H9 l Hl). rewrite forallb_forall in H9. specialize (H9 w Hw).
      rewrite forallb_forall in H9. specialize (H9 (w, n) (proj1 (aliases_in _ _ _ _) Ha)). cbn [fst snd] in H9. rewrite str_eqb_refl in H9. cbn [negb orb] in H9.
      unfold real_scriptb in H9. rewrite !andb_true_iff, !negb_true_iff in H9. destruct H9 as ((A & B) & C).
      split; [split|]; intros E; subst n; rewrite str_eqb_refl in *; discriminate.
Qed.
(** extracts of Scripts.txt, ScriptExtensions.txt and PropertyValueAliases.txt *)
Definition SF_demo : script_files := mkSF
  [Comment (lit " Scripts-17.0.0.txt"); Blank []; stl (Span 0x20 0x40) 4 "Common" 1 ""; stl (Span 0x61 0x7A) 4 "Latin" 1 " L&  [26] LATIN SMALL LETTER A..LATIN SMALL LETTER Z";
   stl (One 0x60C) 10 "Common" 1 " Po       ARABIC COMMA"; stl (One 0x627) 10 "Arabic" 1 ""; stl (Span 0x3001 0x3003) 4 "Common" 1 " Po   [3] IDEOGRAPHIC COMMA..DITTO MARK";
   stl (Span 0x3041 0x3096) 4 "Hiragana" 1 ""; stl (One 0x30FC) 10 "Common" 1 ""; stl (Span 0x300 0x36F) 4 "Inherited" 1 ""]
  [Comment (lit " ScriptExtensions-17.0.0.txt"); stl (One 0x60C) 10 "Arab Gara Nkoo Rohg Syrc Thaa Yezi" 1 " Po       ARABIC COMMA";
   stl (One 0x30FC) 10 "Hira Kana" 1 ""; stl (One 0x3001) 10 "Bopo Hang Hani Hira Kana Mong Phag Tibt Yiii" 1 " Po       IDEOGRAPHIC COMMA"]
  [mkSec (lit "Script") (lit "sc") [Blank []; pvl "sc" 1 "Arab" 34 "Arabic" ""; pvl "sc" 1 "Bopo" 34 "Bopomofo" ""; pvl "sc" 1 "Gara" 34 "Garay" "";
   pvl "sc" 1 "Hang" 34 "Hangul" ""; pvl "sc" 1 "Hani" 34 "Han" ""; pvl "sc" 1 "Hira" 34 "Hiragana" ""; pvl "sc" 1 "Kana" 34 "Katakana" "";
   pvl "sc" 1 "Latn" 34 "Latin" ""; pvl "sc" 1 "Mong" 34 "Mongolian" ""; pvl "sc" 1 "Nkoo" 34 "Nko" ""; pvl "sc" 1 "Phag" 34 "Phags_Pa" "";
   pvl "sc" 1 "Rohg" 34 "Hanifi_Rohingya" ""; pvl "sc" 1 "Syrc" 34 "Syriac" ""; pvl "sc" 1 "Thaa" 34 "Thaana" ""; pvl "sc" 1 "Tibt" 34 "Tibetan" "";
   pvl "sc" 1 "Yezi" 34 "Yezidi" ""; pvl "sc" 1 "Yiii" 34 "Yi" ""; pvl "sc" 1 "Zyyy" 34 "Common" ""; Blank []]].
Lemma SF_demo_ok : script_files_ok SF_demo /\ script_facts SF_demo.
Proof. apply sf_okb_ok. vm_compute. reflexivity. Qed.
