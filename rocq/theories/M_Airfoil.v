(** Model of pySailingVLM/thin_airfoil/vlm_airfoil.py (plotting omitted). *)

From Coq Require Import ZArith List Bool.
From Verif Require Import Num PyBase.
Import ListNotations.
Local Open Scope num_scope.

Section Airfoil.
Context {F : Type} `{Num F}.

(* vlm_airfoil.py 64-76, __check_naca_params: the three range tests; the local
   ValueError is caught and turned into sys.exit(1). *)
Definition check_naca_params (m p t : F) : res unit :=
  if negb ((m <=? ndec 3 1) && (nZ 0 <=? m)) then Raise (SystemExit 1)
  else if negb ((p <=? ndec 9 1) && (nZ 0 <=? p)) then Raise (SystemExit 1)
  else if negb ((t <=? ndec 4 1) && (nZ 0 <=? t)) then Raise (SystemExit 1)
  else Ok tt.

(* vlm_airfoil.py 78-86, __get_y_camber *)
Definition get_y_camber (m p x : F) : res F :=
  if (x <? p) && (nZ 0 <=? x) then
    Ok (m * (nZ 2 * p * x - x * x) / (p * p))
  else if (p <=? x) && (x <=? nZ 1) then
    Ok (m * (nZ 1 - nZ 2 * p + nZ 2 * p * x - x * x) / ((nZ 1 - p) * (nZ 1 - p)))
  else Raise ValueError.

(* vlm_airfoil.py 88-96, __get_dy_dx_camber *)
Definition get_dy_dx_camber (m p x : F) : res F :=
  if (x <? p) && (nZ 0 <=? x) then
    Ok (nZ 2 * m * (p - x) / (p * p))
  else if (p <=? x) && (x <=? nZ 1) then
    Ok (nZ 2 * m * (p - x) / ((nZ 1 - p) * (nZ 1 - p)))
  else Raise ValueError.

(* vlm_airfoil.py 14-19 (coefficients) and 98-103, __get_camber_thickness *)
Definition thickness_poly (a4 : F) (t x : F) : F :=
  nZ 5 * t * (ndec 2969 4 * nsqrt x + ndec (-126) 3 * x + ndec (-3516) 4 * x * x
              + ndec 2843 4 * x * x * x + a4 * x * x * x * x).
Definition get_camber_thickness (t x : F) : F :=
  if nZ 1 - x <? ndec 1 4 then thickness_poly (ndec (-1036) 4) t x
  else thickness_poly (ndec (-1015) 4) t x.

(* The attributes of a VlmAirfoil object. *)
Record airfoil := Airfoil {
  af_xc : list F; af_yc : list F; af_yt : list F;
  af_xu : list F; af_xl : list F; af_yu : list F; af_yl : list F }.

(* vlm_airfoil.py 30-34: surface points from camber point, half thickness and
   theta = atan(slope) *)
Definition surf_xu (xc yt th : F) := xc - yt * nsin th.
Definition surf_xl (xc yt th : F) := xc + yt * nsin th.
Definition surf_yu (yc yt th : F) := yc + yt * ncos th.
Definition surf_yl (yc yt th : F) := yc - yt * ncos th.

(* vlm_airfoil.py 8-34, VlmAirfoil.__init__ *)
Definition VlmAirfoil (m p t : F) (n : nat) : res airfoil :=
  do _ <- check_naca_params m p t;
  let xc := linspace01 n in
  do yc <- mapM (get_y_camber m p) xc;
  let yt := map (get_camber_thickness t) xc in
  do dyc <- mapM (get_dy_dx_camber m p) xc;
  let th := map natan dyc in
  let xt := combine xc (combine yt th) in
  let yt' := combine yc (combine yt th) in
  Ok (Airfoil xc yc yt
        (map (fun a => surf_xu (fst a) (fst (snd a)) (snd (snd a))) xt)
        (map (fun a => surf_xl (fst a) (fst (snd a)) (snd (snd a))) xt)
        (map (fun a => surf_yu (fst a) (fst (snd a)) (snd (snd a))) yt')
        (map (fun a => surf_yl (fst a) (fst (snd a)) (snd (snd a))) yt')).

End Airfoil.
Arguments airfoil F : clear implicits.
