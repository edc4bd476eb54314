(* rrdesi --model with MPI: external/desi.py 1193-1235, targets.py 446-489. Every rank renders its targets from the broadcast table; rank 0 gathers the models and the
   ids in the order of the ranks and sorts them.
   Simplifications: those of Model_ModelFile.v and Model_RunDesiMPI.v; gather and bcast deliver (they are collective); an exception on any rank counts as the end of
   the run. *)
From Verif Require Import Prelude NumX Model_Fitz Model_Rebin Model_Dist Model_Zscan Model_Piece Model_IO Model_Zfind Model_Targets Model_Desi Model_Run Model_RunMPI Model_RunDesi Model_Models Model_ModelFile.
Open Scope nat_scope.

(* 1203-1232 on rank 0; locals: the targets of the ranks *)
Definition root_hdus (ps : list tmpl) (tab : list frow) (locals : list (list targ)) : res (list (Z * (list Q * list (list Q)))) :=
  do mss <- mapM (render_all ps tab) locals;                                        (* 1203, 1206 *)
  let ms := concat mss in                                                           (* 1215 *)
  let ids := concat (map (map g_id) locals) in                                      (* 1204, 1207, 1218 *)
  do idx <- sort_indices ids (map f_tid (zbest tab));                               (* 1219-1225 *)
  mapM (fun hw => do rows <- column ms idx (fst hw); Ok (fst hw, (snd hw, rows))) (wavegrids_mpi locals).
