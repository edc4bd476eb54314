(* C187: what rrdesi --archetypes accepts. *)
From Verif Require Import Prelude PreludeFacts Model_IO Model_Zscan Model_Arch Model_FindArch Spec_FindArch Proof_FindArch Model_AllArch Props_AllArch Model_ArchOption.
Local Open Scope string_scope.
Lemma split_ne sep s : forall k cur, split_go sep s k cur <> [].
Proof. induction s as [|c s IH]; intros k cur; cbn [split_go]; [discriminate|]. destruct k; [|apply IH]. destruct (String.prefix sep (String c s)); [discriminate|apply IH]. Qed.
Lemma dash_head c s : String.prefix "-" (String c s) = if Ascii.eqb c "-" then true else false.
Proof. cbn [String.prefix]. destruct (Ascii.eqb_spec c "-") as [->|N]; [destruct (ascii_dec "-" "-"); [now destruct s|congruence]|]. destruct (ascii_dec "-" c); [congruence|reflexivity]. Qed.
Lemma dash_none s : without "-" s -> forall cur, split_go "-" s 0 cur = [cur ++ s].
Proof.
  induction s as [|c s IH]; intros W cur; cbn [split_go]; [now rewrite sapp_nil|]. rewrite dash_head, (proj2 (Ascii.eqb_neq c "-") (without_head _ _ _ W)). rewrite IH by now apply without_tail in W. now rewrite sapp_assoc.
Qed.
Lemma dash_some a b : forall cur, exists x y l, split_go "-" (a ++ String "-" b) 0 cur = x :: y :: l.
Proof.
  assert (B : forall cur r, exists x y l, split_go "-" (String "-" r) 0 cur = x :: y :: l).
  { intros cur r. cbn [split_go]. rewrite dash_head. cbn [Ascii.eqb Bool.eqb String.length Nat.sub]. destruct (split_go "-" r 0 "") as [|y l] eqn:E; [now apply split_ne in E|]. now exists cur, y, l. }
  induction a as [|c a IH]; intro cur; [apply B|]. cbn [append]. destruct (ascii_dec c "-") as [->|N]; [apply B|]. cbn [split_go]. rewrite dash_head, (proj2 (Ascii.eqb_neq c "-") N). apply IH.
Qed.
Lemma has_or_not c s : without c s \/ exists a b, s = a ++ String c b.
Proof.
  induction s as [|x s [W|(a & b & ->)]].
  - left. intros [|y a] b E; discriminate E.
  - destruct (ascii_dec x c) as [->|N]; [right; now exists "", s|]. left. intros [|y a] b E; cbn in E; [congruence|]. apply (W a b). congruence.
  - right. now exists (String x a), b.
Qed.
Lemma announced_ok a : (exists t, announced a = Ok t) <-> exists u v, basename a = u ++ String "-" v.
Proof.
  unfold announced, split. destruct (has_or_not "-" (basename a)) as [W|(u & v & E)].
  - rewrite (dash_none _ W). cbn [nth_error]. split; [intros [t H]; discriminate H|]. intros (u & v & E). now apply (W u v) in E.
  - rewrite E. destruct (dash_some u v "") as (x & y & l & ->). cbn [nth_error]. split; [intros _; now exists u, v|]. intros _. destruct (split_go "." y 0 "") as [|t l'] eqn:Ey; [now apply split_ne in Ey|]. now exists t.
Qed.
(* rrdesi goes on with archetypes exactly when the place exists and can be read, is not an empty directory, if it is a file has a dash in its base name,
   and All_archetypes succeeds; the archetypes are those of All_archetypes. *)
Theorem C187_accepted : forall pl fs read a d, archetypes_option pl fs read a = Archetypes d <->
  pl_exists (pl a) = true /\ pl_readable (pl a) = true /\ (pl_isdir (pl a) = true -> pl_entries (pl a) <> []) /\ (pl_isfile (pl a) = true -> exists u v, basename a = u ++ String "-" v) /\
  All_archetypes fs read (Some a) = Ok d.
Proof.
  intros pl fs read a d. unfold archetypes_option. cbv zeta. destruct (pl_exists (pl a)); cbn [andb]; [|split; [discriminate|intros [H _]; discriminate H]].
  destruct (pl_readable (pl a)); [|split; [discriminate|intros (_ & H & _); discriminate H]].
  assert (L : load_option fs read a = Archetypes d <-> All_archetypes fs read (Some a) = Ok d) by (unfold load_option; destruct (All_archetypes fs read (Some a)); split; congruence).
  assert (D : pl_isdir (pl a) && match pl_entries (pl a) with [] => true | _ => false end = false <-> (pl_isdir (pl a) = true -> pl_entries (pl a) <> [])).
  { destruct (pl_isdir (pl a)); cbn [andb]; [|split; [discriminate 2|reflexivity]]. destruct (pl_entries (pl a)); split; try discriminate; try reflexivity. intro H. exfalso. now apply H. }
  destruct (pl_isdir (pl a) && match pl_entries (pl a) with [] => true | _ => false end); [split; [discriminate|intros (_ & _ & H & _); apply D in H; discriminate H]|].
  pose proof (proj1 D eq_refl) as D1. pose proof (announced_ok a) as An. destruct (pl_isfile (pl a)).
  - destruct (announced a) as [t|e].
    + rewrite L. split; [intro H; split; [reflexivity|split; [reflexivity|split; [exact D1|split; [intros _; apply An; now exists t|exact H]]]]|]. now intros (_ & _ & _ & _ & H).
    + split; [discriminate|]. intros (_ & _ & _ & H & _). apply An in H; [|reflexivity]. destruct H as [t H]. discriminate H.
  - rewrite L. split; [intro H; split; [reflexivity|split; [reflexivity|split; [exact D1|split; [discriminate|exact H]]]]|]. now intros (_ & _ & _ & _ & H).
Qed.
(* A readable archetype file without a dash in its base name: All_archetypes loads it, rrdesi stops with IndexError. *)
Theorem C187_any_file_refuted : exists pl fs read a A, pl_exists (pl a) = true /\ pl_readable (pl a) = true /\ pl_isfile (pl a) = true /\
  All_archetypes fs read (Some a) = Ok [("GALAXY", A)] /\ archetypes_option pl fs read a = Raised IndexError.
Proof.
  exists (fun _ => {| pl_exists := true; pl_readable := true; pl_isdir := false; pl_isfile := true; pl_entries := [] |}),
    {| af_isfile := fun _ => true; af_names := fun _ => []; af_env := fun _ => None; af_pkg := None |}, (fun _ => Ok (arch_of "a")), "/a/galaxies.fits", (arch_of "a"). vm_compute. repeat split.
Qed.
(* A directory that is not empty but holds no archetype file: rrdesi goes on, with no archetypes at all. *)
Theorem C187_no_archetypes_refuted : exists pl fs read a, pl_isdir (pl a) = true /\ pl_entries (pl a) <> [] /\ glob fs a = [] /\ archetypes_option pl fs read a = Archetypes [].
Proof.
  exists (fun _ => {| pl_exists := true; pl_readable := true; pl_isdir := true; pl_isfile := false; pl_entries := ["README"] |}),
    {| af_isfile := fun _ => false; af_names := fun _ => []; af_env := fun _ => None; af_pkg := None |}, (fun _ => Err OSError), "/a". vm_compute. repeat split. discriminate.
Qed.
(* The type announced for a file is that of its name, not the one it holds. *)
Theorem C187_announced_refuted : exists pl fs read a A, announced a = Ok "star" /\ archetypes_option pl fs read a = Archetypes [("GALAXY", A)].
Proof.
  exists (fun _ => {| pl_exists := true; pl_readable := true; pl_isdir := false; pl_isfile := true; pl_entries := [] |}),
    {| af_isfile := fun _ => true; af_names := fun _ => []; af_env := fun _ => None; af_pkg := None |}, (fun _ => Ok (arch_of "a")), "/a/rrarchetype-star.fits", (arch_of "a"). vm_compute. repeat split.
Qed.
Print Assumptions C187_accepted. Print Assumptions C187_any_file_refuted. Print Assumptions C187_no_archetypes_refuted. Print Assumptions C187_announced_refuted.
