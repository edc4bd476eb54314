(* What the rebinned, absorbed template data of a set of redshifts are. *)
From Verif Require Import Prelude Model_Rebin Model_IGM Spec_IGM Model_Piece.
Require Import Reals Qreals.
Open Scope nat_scope.

(* one redshift: the template covers the bins, and row is the list of bins of the basis vectors,
   each the redshifted vector rebinned on its own *)
Definition row_at (wave : list Q) (flux : list (list Q)) (edges : list Q) (z : Q) (row : list (list Q)) : Prop :=
  (nth 0 wave 0 * (1 + z) <= nth 0 edges 0)%Q /\ (nth (length edges - 1) edges 0 <= nth (length wave - 1) wave 0 * (1 + z))%Q /\
  exists cols, Forall2 (fun y col => rebin_1d (redshifted wave z) y edges (zeros (length edges - 1)) = Ok col) flux cols /\
    length row = length edges - 1 /\ forall i, i < length edges - 1 -> nth i row [] = map (fun c => nth i c 0%Q) cols.
(* ... times the transmission at that redshift and wavelength *)
Definition pixel_at (wave : list Q) (flux : list (list Q)) (model : option string) (lo : list Q) (z : Q) (out : list (list R)) : Prop :=
  exists edges row, centers2edges lo = Ok edges /\ row_at wave flux edges z row /\ length out = length lo /\
    forall i, i < length lo -> nth i out [] = map (fun v => (Q2R v * T_of model (Q2R z) (Q2R (nth i lo 0%Q)))%R) (nth i row []).
(* data: for every grid, one entry per redshift *)
Definition data_at wave flux model (dwave : list (Z * list Q)) (zs : list Q) (data : list (Z * cube)) : Prop :=
  Forall2 (fun kw kd => fst kd = fst kw /\ Forall2 (pixel_at wave flux model (snd kw)) zs (snd kd)) dwave data.
(* the pieces, put one after the other grid by grid, are the whole *)
Definition joined (pieces : list (list (Z * cube))) (whole : list (Z * cube)) : Prop :=
  (forall p, In p pieces -> map fst p = map fst whole) /\
  forall i k c, nth_error whole i = Some (k, c) -> c = concat (map (fun p => snd (nth i p (k, []))) pieces).
(* a dedges entry that stands for the wavelengths of a dwave entry *)
Definition same_bins (kw : Z * list Q) (ke : Z * dedge) : Prop :=
  fst ke = fst kw /\ exists e, centers2edges (snd kw) = Ok e /\
    (snd ke = EArr e \/ snd ke = ETup e (nth 0 e 0%Q) (nth (length e - 1) e 0%Q)).
(* no plain array comes after a tuple *)
Definition arrays_first (de : list (Z * dedge)) : Prop :=
  forall i j k k' e m M e', nth_error de i = Some (k, ETup e m M) -> nth_error de j = Some (k', EArr e') -> j < i.
