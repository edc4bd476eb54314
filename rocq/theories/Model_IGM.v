(* Model of igm.py: transmission of the intergalactic medium, over the reals.
   Simplified: exact real arithmetic instead of float64; np/cp are the same; wavelengths and 1+z are
   positive where powers are used (Rpower is the real power of a positive base). *)
From Verif Require Import Prelude.
Require Import Reals Lra.
Local Open Scope R_scope.

(* constants.py 14 *)
Definition LyA : R := 121567 / 100.
(* constants.py 15-40: line, A, B *)
Record lyman := { ly_line : R; ly_A : R; ly_B : R }.
Definition calura12 : list lyman :=
  [ {| ly_line := LyA; ly_A := 23/10000; ly_B := 364/100 |};
    {| ly_line := 102572/100; ly_A := 23/10000 / (52615/10000); ly_B := 364/100 |};
    {| ly_line := 972537/1000; ly_A := 23/10000 / (14356/1000); ly_B := 364/100 |};
    {| ly_line := 9497431/10000; ly_A := 23/10000 / (2985984/100000); ly_B := 364/100 |};
    {| ly_line := 9378035/10000; ly_A := 23/10000 / (5336202/100000); ly_B := 364/100 |} ].
Definition kamble20 : list lyman := [ {| ly_line := LyA; ly_A := 554/100000; ly_B := 3182/1000 |} ].

(* .min() of a non-empty array (an empty one raises ValueError, see transmission_Lyman below) *)
Definition rmin (l : list R) : R := match l with [] => 0 | x :: r => fold_left Rmin r x end.
Definition rmax (l : list R) : R := match l with [] => 0 | x :: r => fold_left Rmax r x end.
Definition ltb (x y : R) : bool := if Rlt_dec x y then true else false.
Definition geb (x y : R) : bool := if Rlt_dec x y then false else true.

(* igm.py 349-363: one entry; [minw] is the smallest rest wavelength of the whole array (343).  1 + zpix
   is lObs/line *)
Definition ck_step (minw z lo : R) (T : R) (l : lyman) : R :=
  if ltb (ly_line l) minw then T
  else if ltb (1 / (1 + z) * lo) (ly_line l) then T * exp (- (ly_A l * Rpower (1 + (lo / ly_line l - 1)) (ly_B l)))
  else T.
Definition ck_entry (series : list lyman) (minw z lo : R) : R := fold_left (ck_step minw z lo) series 1.
(* igm.py 321-364 *)
Definition trans_ck (series : list lyman) (zs los : list R) : list (list R) :=
  let minw := rmin (concat (map (fun z => map (fun lo => 1 / (1 + z) * lo) los) zs)) in
  map (fun z => map (ck_entry series minw z) los) zs.

(* data/LAFcoeff.txt, data/DLAcoeff.txt (loaded in 66-81): one record per line, all 39 lines *)
Record iline := { l_lam : Q; l_A1 : Q; l_A2 : Q; l_A3 : Q; l_D1 : Q; l_D2 : Q }.
Definition inoue_lines : list iline := [
  {| l_lam := (121567#100); l_A1 := (10561#625000); l_A2 := (235379#100000000); l_A3 := (102611#1000000000); l_D1 := (80849#500000000); l_D2 := (107799#2000000000) |};
  {| l_lam := (25643#25); l_A1 := (469229#100000000); l_A2 := (5229#8000000); l_A3 := (14247#500000000); l_D1 := (154539#1000000000); l_D2 := (515129#10000000000) |};
  {| l_lam := (972537#1000); l_A1 := (111949#50000000); l_A2 := (77971#250000000); l_A3 := (67981#5000000000); l_D1 := (149767#1000000000); l_D2 := (249611#5000000000) |};
  {| l_lam := (949743#1000); l_A1 := (131901#100000000); l_A2 := (36747#200000000); l_A3 := (400487#50000000000); l_D1 := (146031#1000000000); l_D2 := (486769#10000000000) |};
  {| l_lam := (937803#1000); l_A1 := (3401#3906250); l_A2 := (379#3125000); l_A3 := (528707#100000000000); l_D1 := (142893#1000000000); l_D2 := (59539#1250000000) |};
  {| l_lam := (232687#250); l_A1 := (617843#1000000000); l_A2 := (5379#62500000); l_A3 := (187593#50000000000); l_D1 := (140159#1000000000); l_D2 := (116799#2500000000) |};
  {| l_lam := (463113#500); l_A1 := (115231#250000000); l_A2 := (128411#2000000000); l_A3 := (279897#100000000000); l_D1 := (68857#500000000); l_D2 := (57381#1250000000) |};
  {| l_lam := (18463#20); l_A1 := (356887#1000000000); l_A2 := (99427#2000000000); l_A3 := (2709#1250000000); l_D1 := (27099#200000000); l_D2 := (9033#200000000) |};
  {| l_lam := (920963#1000); l_A1 := (142139#500000000); l_A2 := (49499#1250000000); l_A3 := (43157#25000000000); l_D1 := (33363#250000000); l_D2 := (444841#10000000000) |};
  {| l_lam := (114919#125); l_A1 := (231771#1000000000); l_A2 := (322851#10000000000); l_A3 := (140743#100000000000); l_D1 := (131561#1000000000); l_D2 := (54817#1250000000) |};
  {| l_lam := (918129#1000); l_A1 := (48087#250000000); l_A2 := (8373#312500000); l_A3 := (29201#25000000000); l_D1 := (25957#200000000); l_D2 := (432617#10000000000) |};
  {| l_lam := (917181#1000); l_A1 := (32431#200000000); l_A2 := (112939#5000000000); l_A3 := (984689#1000000000000); l_D1 := (128117#1000000000); l_D2 := (26691#625000000) |};
  {| l_lam := (916429#1000); l_A1 := (69249#500000000); l_A2 := (7717#400000000); l_A3 := (841033#1000000000000); l_D1 := (6327#50000000); l_D2 := (421799#10000000000) |};
  {| l_lam := (114478#125); l_A1 := (119611#1000000000); l_A2 := (33323#2000000000); l_A3 := (36317#50000000000); l_D1 := (125041#1000000000); l_D2 := (104201#2500000000) |};
  {| l_lam := (915329#1000); l_A1 := (52157#500000000); l_A2 := (72653#5000000000); l_A3 := (316723#500000000000); l_D1 := (61807#500000000); l_D2 := (206023#5000000000) |};
  {| l_lam := (914919#1000); l_A1 := (917397#10000000000); l_A2 := (127791#10000000000); l_A3 := (557091#1000000000000); l_D1 := (15281#125000000); l_D2 := (203747#5000000000) |};
  {| l_lam := (114322#125); l_A1 := (50799#625000000); l_A2 := (113219#10000000000); l_A3 := (123391#250000000000); l_D1 := (60469#500000000); l_D2 := (403127#10000000000) |};
  {| l_lam := (457143#500); l_A1 := (725069#10000000000); l_A2 := (101#10000000); l_A3 := (440299#1000000000000); l_D1 := (119681#1000000000); l_D2 := (199469#5000000000) |};
  {| l_lam := (914039#1000); l_A1 := (650549#10000000000); l_A2 := (453099#50000000000); l_A3 := (395047#1000000000000); l_D1 := (118469#1000000000); l_D2 := (24681#625000000) |};
  {| l_lam := (456913#500); l_A1 := (9169#156250000); l_A2 := (817421#100000000000); l_A3 := (71269#200000000000); l_D1 := (58649#500000000); l_D2 := (78199#2000000000) |};
  {| l_lam := (913641#1000); l_A1 := (265959#5000000000); l_A2 := (740949#100000000000); l_A3 := (5047#15625000000); l_D1 := (116167#1000000000); l_D2 := (15489#400000000) |};
  {| l_lam := (22837#25); l_A1 := (484261#10000000000); l_A2 := (674563#100000000000); l_A3 := (73517#250000000000); l_D1 := (115071#1000000000); l_D2 := (95893#2500000000) |};
  {| l_lam := (913339#1000); l_A1 := (22137#500000000); l_A2 := (308363#50000000000); l_A3 := (134427#500000000000); l_D1 := (114011#1000000000); l_D2 := (380037#10000000000) |};
  {| l_lam := (182643#200); l_A1 := (406311#10000000000); l_A2 := (565981#100000000000); l_A3 := (246733#1000000000000); l_D1 := (112983#1000000000); l_D2 := (376609#10000000000) |};
  {| l_lam := (114138#125); l_A1 := (373821#10000000000); l_A2 := (520723#100000000000); l_A3 := (227003#1000000000000); l_D1 := (27993#250000000); l_D2 := (373241#10000000000) |};
  {| l_lam := (456503#500); l_A1 := (345377#10000000000); l_A2 := (240551#50000000000); l_A3 := (209731#1000000000000); l_D1 := (55501#500000000); l_D2 := (74001#2000000000) |};
  {| l_lam := (456459#500); l_A1 := (319891#10000000000); l_A2 := (445601#100000000000); l_A3 := (38851#200000000000); l_D1 := (110051#1000000000); l_D2 := (91709#2500000000) |};
  {| l_lam := (912839#1000); l_A1 := (29711#1000000000); l_A2 := (413867#100000000000); l_A3 := (180421#1000000000000); l_D1 := (873#8000000); l_D2 := (363749#10000000000) |};
  {| l_lam := (114096#125); l_A1 := (55327#2000000000); l_A2 := (192673#50000000000); l_A3 := (167987#1000000000000); l_D1 := (5411#50000000); l_D2 := (180367#5000000000) |};
  {| l_lam := (912703#1000); l_A1 := (129089#5000000000); l_A2 := (89909#25000000000); l_A3 := (156779#1000000000000); l_D1 := (107337#1000000000); l_D2 := (357789#10000000000) |};
  {| l_lam := (182529#200); l_A1 := (241479#10000000000); l_A2 := (168187#50000000000); l_A3 := (73319#500000000000); l_D1 := (106473#1000000000); l_D2 := (354909#10000000000) |};
  {| l_lam := (114074#125); l_A1 := (226347#10000000000); l_A2 := (9853#3125000000); l_A3 := (2749#20000000000); l_D1 := (105629#1000000000); l_D2 := (11003#312500000) |};
  {| l_lam := (912543#1000); l_A1 := (212567#10000000000); l_A2 := (2961#1000000000); l_A3 := (129081#1000000000000); l_D1 := (52401#500000000); l_D2 := (17467#500000000) |};
  {| l_lam := (912499#1000); l_A1 := (199967#10000000000); l_A2 := (278549#100000000000); l_A3 := (12143#100000000000); l_D1 := (103991#1000000000); l_D2 := (86659#2500000000) |};
  {| l_lam := (456229#500); l_A1 := (47119#2500000000); l_A2 := (262543#100000000000); l_A3 := (28613#250000000000); l_D1 := (51599#500000000); l_D2 := (171997#5000000000) |};
  {| l_lam := (45621#50); l_A1 := (22241#1250000000); l_A2 := (4957#2000000000); l_A3 := (108047#1000000000000); l_D1 := (5121#50000000); l_D2 := (170701#5000000000) |};
  {| l_lam := (182477#200); l_A1 := (84111#5000000000); l_A2 := (23433#10000000000); l_A3 := (102153#1000000000000); l_D1 := (101657#1000000000); l_D2 := (42357#1250000000) |};
  {| l_lam := (912353#1000); l_A1 := (79643#5000000000); l_A2 := (110941#50000000000); l_A3 := (241817#2500000000000); l_D1 := (25227#250000000); l_D2 := (336359#10000000000) |};
  {| l_lam := (228081#250); l_A1 := (37749#2500000000); l_A2 := (105167#50000000000); l_A3 := (36677#400000000000); l_D1 := (12521#125000000); l_D2 := (66779#2000000000) |}
]%Q.
Definition rsum (l : list R) : R := fold_right Rplus 0 l.
(* igm.py 101-134, one entry.  The three masks are disjoint, the value starts at zero *)
Definition tLSLAF_line (z lo : R) (l : iline) : R :=
  let l2 := Q2R (l_lam l) in
  let x0 := ltb (lo / (1 + z)) l2 in
  let x1 := x0 && ltb lo (l2 * (1 + 12/10)) in
  let x2 := x0 && (geb lo (l2 * (1 + 12/10)) && ltb lo (l2 * (1 + 47/10))) in
  let x3 := x0 && geb lo (l2 * (1 + 47/10)) in
  let v := 0 in
  let v := if x1 then v + Q2R (l_A1 l) / Rpower l2 (12/10) * Rpower lo (12/10) else v in
  let v := if x2 then v + Q2R (l_A2 l) / Rpower l2 (37/10) * Rpower lo (37/10) else v in
  if x3 then v + Q2R (l_A3 l) / Rpower l2 (55/10) * Rpower lo (55/10) else v.
Definition tLSLAF (z lo : R) : R := rsum (map (tLSLAF_line z lo) inoue_lines).
(* igm.py 137-161 *)
Definition tLSDLA_line (z lo : R) (l : iline) : R :=
  let l2 := Q2R (l_lam l) in
  let x0 := ltb (lo / (1 + z)) l2 && ltb lo (l2 * (1 + 2)) in
  let x1 := ltb (lo / (1 + z)) l2 && negb (ltb lo (l2 * (1 + 2))) in
  let v := 0 in
  let v := if x0 then v + Q2R (l_D1 l) / l2 ^ 2 * lo ^ 2 else v in
  if x1 then v + Q2R (l_D2 l) / l2 ^ 3 * lo ^ 3 else v.
Definition tLSDLA (z lo : R) : R := rsum (map (tLSDLA_line z lo) inoue_lines).
Definition lamL : R := 9118/10.
(* igm.py 164-189; (power(...)*y0)[y0] is the power where y0 holds *)
Definition tLCDLA (z lo : R) : R :=
  let x0 := ltb lo (lamL * (1 + z)) in
  let v := 0 in
  let y0 := x0 && ltb z 2 in
  let v := if y0 then 2113/10000 * (1 + z) ^ 2 - 7661/100000 * Rpower (1 + z) (23/10) * Rpower (lo / lamL) (-(3/10)) - 1347/10000 * (lo / lamL) ^ 2 else v in
  let y0 := x0 && geb z 2 in
  let x1 := geb lo (lamL * (1 + 2)) in
  let v := if y0 && x1 then 4696/100000 * (1 + z) ^ 3 - 1779/100000 * Rpower (1 + z) (33/10) * Rpower (lo / lamL) (-(3/10)) - 2916/100000 * (lo / lamL) ^ 3 else v in
  if y0 && negb x1 then 6340/10000 + 4696/100000 * (1 + z) ^ 3 - 1779/100000 * Rpower (1 + z) (33/10) * Rpower (lo / lamL) (-(3/10)) - 1347/10000 * (lo / lamL) ^ 2 - 2905/10000 * Rpower (lo / lamL) (-(3/10)) else v.
(* igm.py 192-226: later assignments overwrite earlier ones *)
Definition tLCLAF (z lo : R) : R :=
  let u := lo / lamL in
  let x0 := ltb lo (lamL * (1 + z)) in
  let v := 0 in
  let y0 := x0 && ltb z (12/10) in
  let v := if y0 then 3248/10000 * (Rpower u (12/10) - Rpower (1 + z) (-(9/10)) * Rpower u (21/10)) else v in
  let y0 := x0 && ltb z (47/10) in
  let x1 := geb lo (lamL * (1 + 12/10)) in
  let v := if y0 && x1 then 2545/100000 * (Rpower (1 + z) (16/10) * Rpower u (21/10) - Rpower u (37/10)) else v in
  let v := if y0 && negb x1 then 2545/100000 * Rpower (1 + z) (16/10) * Rpower u (21/10) + 3248/10000 * Rpower u (12/10) - 2496/10000 * Rpower u (21/10) else v in
  let y0 := x0 && geb z (47/10) in
  let x1 := ltb (lamL * (1 + 47/10)) lo in
  let x2 := geb lo (lamL * (1 + 12/10)) && ltb lo (lamL * (1 + 47/10)) in
  let x3 := ltb lo (lamL * (1 + 12/10)) in
  let v := if y0 && x1 then 5221/10000000 * (Rpower (1 + z) (34/10) * Rpower u (21/10) - Rpower u (55/10)) else v in
  let v := if y0 && x2 then 5221/10000000 * Rpower (1 + z) (34/10) * Rpower u (21/10) + 2182/10000 * Rpower u (21/10) - 2545/100000 * Rpower u (37/10) else v in
  if y0 && x3 then 5221/10000000 * Rpower (1 + z) (34/10) * Rpower u (21/10) + 3248/10000 * Rpower u (12/10) - 3140/100000 * Rpower u (21/10) else v.
(* igm.py 229-265 with scale_tau = 1 (IGM = Inoue14(), 299) *)
Definition full_IGM (z lo : R) : R := exp (- 1 * ((tLCLAF z lo + tLCDLA z lo) + (tLSLAF z lo + tLSDLA z lo) + 0)).
(* igm.py 283-318 *)
Definition trans_inoue (zs los : list R) : list (list R) :=
  map (fun z => if ltb (rmin los / (1 + z)) LyA then map (full_IGM z) los else map (fun _ => 1) los) zs.

(* igm.py 367-440.  A scalar is given as [Scalar x] *)
Inductive arr := Scalar (x : R) | Array (l : list R).
Definition atleast_1d (a : arr) : list R := match a with Scalar x => [x] | Array l => l end.
Inductive tout := NoTrans | T0 (x : R) | T1 (l : list R) | T2 (m : list (list R)).
(* 428-440 *)
Definition shape (z lo : arr) (m : list (list R)) : res tout :=
  match z, lo with
  | Scalar _, Scalar _ => match m with [[x]] => Ok (T0 x) | _ => Err AssertionError end
  | Scalar _, Array _ => match m with [r] => Ok (T1 r) | _ => Err AssertionError end
  | Array _, Scalar _ => do c <- mapM (fun r => match r with [x] => Ok x | _ => Err AssertionError end) m; Ok (T1 c)
  | Array _, Array _ => Ok (T2 m)
  end.
(* model: None is [None] *)
Definition known (model : option string) : bool :=
  match model with None => true | Some s => existsb (String.eqb s) ["Calura12"; "Kamble20"; "Inoue14"; "None"]%string end.
Definition no_model (model : option string) : bool := match model with None => true | Some s => String.eqb s "None" end.
Definition transmission_Lyman (z lo : arr) (model : option string) (always : bool) : res tout :=
  if negb (known model) then Err ValueError else
  if no_model model && negb always then Ok NoTrans else
  let zs := atleast_1d z in let los := atleast_1d lo in
  (* np.min / np.max of an empty array *)
  if (match zs with [] => true | _ => false end) || (match los with [] => true | _ => false end) then Err ValueError else
  let minw := rmin los / (1 + rmax zs) in
  if ltb LyA minw && negb always then Ok NoTrans else
  if always && (ltb LyA minw || no_model model) then shape z lo (map (fun _ => map (fun _ => 1) los) zs)
  else match model with
       | Some s => if String.eqb s "Calura12" then shape z lo (trans_ck calura12 zs los)
                   else if String.eqb s "Kamble20" then shape z lo (trans_ck kamble20 zs los)
                   else if String.eqb s "Inoue14" then shape z lo (trans_inoue zs los)
                   else Err ValueError
       | None => Err ValueError
       end.
