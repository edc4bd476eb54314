(* C188: numbers of a file are the same whatever byte order they are stored in. *)
From Verif Require Import Prelude Model_Endian.
From Coq Require Import Ascii.
Local Open Scope nat_scope.
(* a host has one of the two orders; arrays whose items have one byte have no order, and others have one *)
Definition is_host (o : order) : Prop := o = LittleEndian \/ o = BigEndian.
Definition array_ok (a : ndarray) : Prop := Forall (fun b => length b = nd_size a) (nd_items a) /\ (nd_order a = NoOrder -> nd_size a <= 1).
Lemma rev1 {A} (l : list A) : length l <= 1 -> rev l = l.
Proof. destruct l as [|x [|y l]]; intro H; [reflexivity|reflexivity|cbn in H; lia]. Qed.
Lemma eqbP a b : reflect (a = b) (order_eqb a b).
Proof. destruct a, b; constructor; congruence. Qed.
(* The numbers are the numbers of the file. *)
Theorem C188_same_values : forall V (num : list ascii -> V) host fresh a, is_host host -> array_ok a -> values num (native_endian host fresh a) = values num a.
Proof.
  intros V num host fresh a Hh _. unfold native_endian, isnative. destruct (eqbP (nd_order a) NoOrder) as [E|E]; [reflexivity|]. destruct (eqbP (nd_order a) host) as [E2|E2]; [reflexivity|].
  unfold values, view_native, byteswap. cbn [orb nd_order nd_items]. rewrite map_map. apply map_ext. intro b. destruct (nd_order a), Hh as [->| ->]; try congruence. now rewrite rev_involutive.
Qed.
(* Code that reads the buffer in the order of the host sees them too. *)
Theorem C188_seen_by_all : forall V (num : list ascii -> V) host fresh a, is_host host -> array_ok a -> raw_values num host (native_endian host fresh a) = values num a.
Proof.
  intros V num host fresh a Hh [Hl Hs]. rewrite <- (C188_same_values V num host fresh a Hh (conj Hl Hs)). unfold native_endian, isnative, raw_values, values.
  destruct (eqbP (nd_order a) NoOrder) as [E|E]; cbn [orb].
  - rewrite E. apply map_ext_in. intros b Hb. rewrite Forall_forall in Hl. specialize (Hl b Hb). specialize (Hs E). destruct host; [reflexivity|now rewrite rev1 by lia|reflexivity].
  - destruct (eqbP (nd_order a) host) as [E2|E2]; [rewrite E2; reflexivity|]. cbn [view_native byteswap nd_order nd_items]. destruct (nd_order a); [reflexivity|reflexivity|congruence].
Qed.
(* The array itself is returned when nothing has to be done, and never changed. *)
Theorem C188_copy_only_if_needed : forall host fresh a, is_host host -> nd_label a <> fresh -> (native_endian host fresh a = a <-> isnative host a = true) /\ (isnative host a = false -> nd_label (native_endian host fresh a) = fresh).
Proof.
  intros host fresh a Hh Hf. unfold native_endian. destruct (isnative host a); [split; [split; reflexivity|discriminate]|]. cbn [view_native byteswap nd_label]. split; [|reflexivity]. split; [|discriminate]. intro H. apply (f_equal nd_label) in H. cbn in H. congruence.
Qed.
(* Once is enough, and the result has the size, the number of items and an order of the host. *)
Theorem C188_native : forall host fresh fresh' a, is_host host -> array_ok a -> let b := native_endian host fresh a in
  isnative host b = true /\ native_endian host fresh' b = b /\ array_ok b /\ nd_size b = nd_size a /\ length (nd_items b) = length (nd_items a).
Proof.
  intros host fresh fresh' a Hh [Hl Hs] b.
  assert (N : isnative host b = true).
  { unfold b, native_endian. destruct (isnative host a) eqn:E; [exact E|]. unfold isnative in *. cbn [view_native byteswap nd_order]. destruct (nd_order a), Hh as [->| ->]; cbn in *; congruence. }
  split; [exact N|]. split; [unfold native_endian at 1; now rewrite N|]. unfold b, native_endian. destruct (isnative host a) eqn:E; [now repeat split|].
  cbn [view_native byteswap nd_order nd_size nd_items]. rewrite map_length. split; [|now split]. split.
  - cbn. rewrite Forall_map. eapply Forall_impl; [|exact Hl]. intros x Hx. now rewrite rev_length.
  - cbn. destruct (nd_order a), Hh as [->| ->]; cbn in *; try discriminate; try (now apply Hs).
Qed.
(* Two files that hold the same numbers in different orders give the same numbers. *)
Theorem C188_order_of_file : forall V (num : list ascii -> V) host f1 f2 items k, is_host host -> 1 < k -> Forall (fun b => length b = k) items ->
  raw_values num host (native_endian host f1 {| nd_label := 0; nd_order := LittleEndian; nd_size := k; nd_items := items |})
  = raw_values num host (native_endian host f2 {| nd_label := 0; nd_order := BigEndian; nd_size := k; nd_items := map (@rev ascii) items |}).
Proof.
  intros V num host f1 f2 items k Hh Hk Hi. rewrite !C188_seen_by_all; try assumption.
  - unfold values. cbn. rewrite map_map. apply map_ext. intro b. now rewrite rev_involutive.
  - split; [|discriminate]. cbn. rewrite Forall_map. eapply Forall_impl; [|exact Hi]. intros x Hx. now rewrite rev_length.
  - split; [exact Hi|discriminate].
Qed.
(* Without native_endian, code that ignores the order reads other numbers on a host of little-endian order from a file of big-endian order (FITS). *)
Definition number (l : list ascii) : nat := fold_right (fun c n => nat_of_ascii c + 256 * n) 0 l.
Definition fits_array : ndarray := {| nd_label := 0; nd_order := BigEndian; nd_size := 2; nd_items := [["000"; "001"]; ["001"; "002"]]%char |}.
Theorem C188_needed : exists a, is_host LittleEndian /\ array_ok a /\ raw_values number LittleEndian a <> values number a.
Proof. exists fits_array. split; [now left|]. split; [split; [repeat constructor|discriminate]|]. vm_compute. discriminate. Qed.
Example nonvacuous_188 : values number fits_array = [1; 258] /\ raw_values number LittleEndian (native_endian LittleEndian 1 fits_array) = [1; 258] /\ array_ok fits_array.
Proof. split; [reflexivity|]. split; [reflexivity|]. split; [repeat constructor|discriminate]. Qed.
Print Assumptions C188_same_values. Print Assumptions C188_seen_by_all. Print Assumptions C188_copy_only_if_needed. Print Assumptions C188_native. Print Assumptions C188_order_of_file. Print Assumptions C188_needed.
