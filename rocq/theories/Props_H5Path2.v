(* C189 with target ids: whole numbers written in decimal (f'zfit/{targetid}/zfit', results.py 94 and 197). *)
From Verif Require Import Prelude PreludeFacts Model_IO Model_Arch Spec_Arch Proof_Arch Spec_FindArch Model_H5Path Proof_H5Path Props_H5Path Proof_Run.
Local Open Scope string_scope.
Lemma id_name_plain z : plain (id_name z).
Proof.
  assert (N : forall n, without "/" (Model_Arch.dec n)).
  { intros n a b E. apply (dec_no "/" n); [clear; nodigit|]. rewrite E. apply hc_app. right. now left. }
  unfold id_name. destruct (Z.ltb z 0); (split; [|split]).
  - discriminate.
  - intro E. discriminate E.
  - intros a b E. destruct a as [|x a]; cbn in E; [discriminate E|]. injection E as _ E. exact (N _ a b E).
  - destruct (dec_cons (Z.to_nat z)) as (a & c & E). rewrite E. destruct a; discriminate.
  - intro E. apply (dec_no "." (Z.to_nat z)); [clear; nodigit|]. rewrite E. now left.
  - apply N.
Qed.
Lemma id_name_inj x y : id_name x = id_name y -> x = y.
Proof.
  assert (M : forall n m, String "-" (Model_Arch.dec n) <> Model_Arch.dec m).
  { intros n m E. apply (dec_no "-" m); [clear; nodigit|]. rewrite <- E. now left. }
  unfold id_name. destruct (Z.ltb_spec x 0), (Z.ltb_spec y 0); intro E.
  - injection E as E. apply dec_inj in E. lia.
  - now destruct (M _ _ E).
  - symmetry in E. now destruct (M _ _ E).
  - apply dec_inj in E. lia.
Qed.
(* Whatever the target ids are, every target gets its own fits back. *)
Theorem C189_target_ids : forall D (ids zbest : D) (gs : list (string * group D)) (fits : list (Z * D)), gs <> [] -> NoDup (map fst gs) -> NoDup (map fst fits) -> Forall plain (map fst gs) ->
  exists f gs', write_details ids zbest gs (map (fun x => (id_name (fst x), snd x)) fits) = Ok f /\ read_groups f = Ok gs' /\ Permutation gs' gs /\ forall t d, In (t, d) fits -> read_fit f (id_name t) = Ok d.
Proof.
  intros D ids zbest gs fits G Ng Nf Pg.
  assert (E : map fst (map (fun x : Z * D => (id_name (fst x), snd x)) fits) = map id_name (map fst fits)) by (rewrite !map_map; reflexivity).
  destruct (C189_roundtrip_partial ids zbest gs (map (fun x => (id_name (fst x), snd x)) fits) G Ng) as (f & gs' & W & R & P & _ & _ & F).
  - rewrite E. apply FinFun.Injective_map_NoDup; [intros x y; apply id_name_inj|exact Nf].
  - exact Pg.
  - rewrite E. rewrite Forall_map. apply Forall_forall. intros x _. apply id_name_plain.
  - exists f, gs'. repeat (split; [assumption|]). intros t d H. apply F. apply in_map_iff. now exists (t, d).
Qed.
(* A target that is listed twice: no file. *)
Theorem C189_repeated_target : forall D (ids zbest : D) (gs : list (string * group D)) (fits : list (Z * D)) o, NoDup (map fst gs) -> Forall plain (map fst gs) ->
  write_details ids zbest gs (map (fun x => (id_name (fst x), snd x)) fits) = Ok o -> NoDup (map fst fits).
Proof.
  intros D ids zbest gs fits o _ _ H. unfold write_details in H.
  assert (G : forall l (f o : h5file D), create_all f l = Ok o -> NoDup (map fst f) -> NoDup (map fst f ++ map (fun e => components (fst e)) l)).
  { clear. induction l as [|[n d] l IH]; intros f o H N; [now rewrite app_nil_r|]. cbn [create_all] in H. unfold create in H. destruct (existsb _ f) eqn:X in H; [discriminate H|]. cbn [rbind] in H.
    assert (I : ~ In (components n) (map fst f)).
    { intro C. apply in_map_iff in C. destruct C as [e [E1 E2]]. enough (Y : existsb (fun e : list string * D => is_prefix (components n) (fst e) || is_prefix (fst e) (components n)) f = true) by congruence.
      apply existsb_exists. exists e. split; [exact E2|]. rewrite E1. apply orb_true_iff. left. apply prefix_iff. exists []. now rewrite app_nil_r. }
    apply IH in H.
    - rewrite map_app, <- app_assoc in H. exact H.
    - rewrite map_app. cbn [map fst]. apply Proof_Run.NoDup_app_intro; [exact N|constructor; [intros []|constructor]|]. intros x Hx [<-|[]]. exact (I Hx). }
  apply G in H; [|constructor]. cbn [map app fst] in H. apply NoDup_cons_iff in H. destruct H as [_ H]. apply NoDup_cons_iff in H. destruct H as [_ H]. rewrite map_app in H.
  assert (K : NoDup (map (fun e : string * D => components (fst e)) (map fit_write (map (fun x : Z * D => (id_name (fst x), snd x)) fits)))).
  { revert H. generalize (map (fun e : string * D => components (fst e)) (flat_map group_writes gs)). intros l H. induction l as [|x l IH]; [exact H|]. cbn in H. apply NoDup_cons_iff in H. now apply IH. }
  rewrite !map_map in K. assert (Q : map (fun x : Z * D => components (fst (fit_write (id_name (fst x), snd x)))) fits = map (fun z => components ("zfit/" ++ id_name z ++ "/zfit")) (map fst fits)) by (rewrite map_map; reflexivity).
  rewrite Q in K. now apply NoDup_map_inv in K.
Qed.
Example nonvacuous_189_ids : exists f, write_details 0 1 [("GALAXY", grp 10)] (map (fun x => (id_name (fst x), snd x)) [(39627%Z, 2); ((-3)%Z, 4)]) = Ok f /\ read_fit f (id_name (-3)) = Ok 4.
Proof. eexists. split; vm_compute; reflexivity. Qed.
Print Assumptions C189_target_ids. Print Assumptions C189_repeated_target.
