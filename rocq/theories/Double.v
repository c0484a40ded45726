(** The numbers of the model as IEEE-754 binary64 ("double") numbers, as Python and numpy compute with them:
    Flocq's formalisation, rounding to nearest, ties to even.  The elementary functions of the C library are not
    correctly rounded and differ between platforms; they are arbitrary functions here. *)

From Coq Require Import ZArith Reals List Bool.
From Flocq Require Import Core BinarySingleNaN.
From Verif Require Import Num.

Notation double := (binary_float 53 1024).
#[export] Instance p53 : Prec_gt_0 53. Proof. reflexivity. Qed.
#[export] Instance e1024 : Prec_lt_emax 53 1024. Proof. reflexivity. Qed.

(* any implementation of the elementary functions *)
Record elementary := Elementary {
  e_sin : double -> double; e_cos : double -> double; e_asin : double -> double; e_acos : double -> double;
  e_atan : double -> double; e_atan2 : double -> double -> double; e_ln : double -> double; e_pow : double -> double -> double }.

(* the double nearest to an integer *)
Definition dZ (z : Z) : double := binary_normalize 53 1024 p53 e1024 mode_NE z 0 false.
(* np.pi = 884279719003555 / 2^48 *)
Definition d_pi : double := binary_normalize 53 1024 p53 e1024 mode_NE 884279719003555 (-48) false.

Definition Double (e : elementary) : Num double := {|
  nadd := Bplus mode_NE; nsub := Bminus mode_NE; nmul := Bmult mode_NE; ndiv := Bdiv mode_NE;
  nopp := Bopp; nabs := Babs; nsqrt := Bsqrt mode_NE;
  nsin := e_sin e; ncos := e_cos e; nasin := e_asin e; nacos := e_acos e; natan := e_atan e;
  natan2 := e_atan2 e; nln := e_ln e; npow := e_pow e; npi := d_pi; nZ := dZ;
  nltb := Bltb; nleb := Bleb; neqb := Beqb; nisnan := is_nan |}.
