(** Proofs about the generated enumerations, part 5: the values of the Age enumerators. *)
From Coq Require Import Ascii String Permutation Sorted.
From Verif Require Import Base M_TableGen M_PropGen M_UcdApi M_Enums Spec_TableGen Spec_PropGen Spec_UcdApi Spec_Enums
  P_TableGen P_PropGen P_PropGen6 P_PropGen8 P_Enums P_Enums2 P_Enums3 P_Enums4.
Open Scope N_scope.

Lemma nodup_name {A B} (f : A -> B) l a b : NoDup (map f l) -> In a l -> In b l -> f a = f b -> a = b.
Proof.
  induction l as [|x l IH]; intros Hn Ha Hb E; [destruct Ha|]. cbn [map] in Hn. inversion_clear Hn as [|? ? Hx Hn']. destruct Ha as [->|Ha], Hb as [->|Hb].
  - reflexivity. - destruct Hx. rewrite E. now apply in_map. - destruct Hx. rewrite <- E. now apply in_map. - exact (IH Hn' Ha Hb E).
Qed.
Section Age.
Variables (crlf : bool) (F : ucd_files) (B : list (fline stline)) (d : pdata) (enums : list enum_def).
Hypothesis Hok : files_ok F.
Hypothesis Hg : generated_enums crlf F B d enums.
Hypothesis Hd : distinct_names F B.
Hypothesis HB : lines_ok st_ok B.
Hypothesis Hex : exists a v, alias (f_pva F) AGE a v.
Let Hp : parsed crlf F d := Hparsed crlf F B d enums Hg.
Lemma age_enum : exists members, age_members (find_pva (pd_pva d) "Age") = Some members /\ NoDup members /\ (forall id v, enumerator enums AGE id v <-> nth_error members (N.to_nat v) = Some id).
Proof.
  destruct (enums_eq crlf F B d enums Hok Hg) as (age & E & _ & _ & Hm). destruct (Hm Hex) as (members & Em & Ea). exists members.
  destruct (age_compiles crlf F B d enums Hok Hg Hd members Em) as [Hn Hc]. split; [exact Em|]. split; [exact Hn|].
  assert (Hin : In (mkE AGE members) enums) by (rewrite E, Ea; rewrite !in_app_iff; right; left; left; reflexivity).
  assert (Hsan : forall s, In s members -> sanitize s = s).
  { intros s Hs. destruct (age_members_ok crlf F d Hok Hp) as (members' & Em' & _ & Hmem & _). rewrite Em in Em'. injection Em' as <-.
    apply Hmem in Hs as [->|[a Ha]]; [reflexivity|].
    assert (G : s = lit "Unassigned" \/ exists x y, s = version_name x y /\ x < 1000 /\ y < 1000) by (apply Hok in Ha; exact Ha).
    destruct G as [->|(x & y & -> & _)]; [reflexivity|apply sanitize_version]. }
  intros id v. split.
  - intros (e & He & Hname & Hv). assert (e = mkE AGE members) as ->.
    { apply (nodup_name e_name enums); [exact (names_differ crlf F B d enums Hok Hg Hd)|exact He|exact Hin|exact Hname]. }
    apply declared_in in Hv as (i & m & Hi & -> & ->). cbn [e_members] in Hi. rewrite Nat2N.id. rewrite Hsan; [exact Hi|]. now apply nth_error_In in Hi.
  - intros H. exists (mkE AGE members). split; [exact Hin|]. split; [reflexivity|]. apply declared_in. exists (N.to_nat v), id. split; [exact H|].
    split; [symmetry; apply Hsan; now apply nth_error_In in H|]. now rewrite N2Nat.id.
Qed.
Lemma age_order : enumerator enums AGE (lit "Unassigned") 0 /\
  forall x y x' y' v v', x < 1000 -> y < 1000 -> x' < 1000 -> y' < 1000 ->
    enumerator enums AGE (version_name x y) v -> enumerator enums AGE (version_name x' y') v' -> 0 < v /\ (v < v' <-> earlier x y x' y').
Proof.
  destruct age_enum as (members & Em & Hn & He). destruct (members_order _ members (age_al crlf F d Hok Hp) Em Hn) as [H0 Hord].
  split; [apply He; exact H0|]. intros x y x' y' v v' Hx Hy Hx' Hy' Hv Hv'. apply He in Hv. apply He in Hv'. split.
  - assert (v <> 0); [|lia]. intros ->. change (N.to_nat 0) with 0%nat in Hv. rewrite H0 in Hv. discriminate Hv.
  - rewrite <- (Hord x y x' y' _ _ Hx Hy Hx' Hy' Hv Hv'). lia.
Qed.
Lemma age_listed s : s = lit "Unassigned" \/ has_value (f_pva F) AGE s -> exists v, enumerator enums AGE s v.
Proof.
  intros Hs. destruct age_enum as (members & Em & _ & He). destruct (age_members_ok crlf F d Hok Hp) as (members' & Em' & _ & Hmem & _). rewrite Em in Em'. injection Em' as <-.
  apply Hmem in Hs. apply In_nth_error in Hs as [i Hi]. exists (N.of_nat i). apply He. now rewrite Nat2N.id.
Qed.
End Age.
