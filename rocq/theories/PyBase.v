(** Python and numpy building blocks: exceptions as values, sequence indexing,
    splitting, reshaping. *)

From Coq Require Import ZArith List Bool Arith Lia String.
From Verif Require Import Num.
Import ListNotations.

(** Exceptions the modelled code can raise.  [SystemExit c]: [sys.exit(c)]
    ([sys.exit()] exits with status 0). *)
Inductive exn :=
| ValueError | IndexError | KeyError | TypeError | ZeroDivisionError
| LinAlgError | AssertionError | UnboundLocalError | AttributeError
| ImportError | FileNotFoundError | SameFileError | NotADirectoryError
| SystemExit (code : Z).

Inductive res (A : Type) := Ok (a : A) | Raise (e : exn).
Arguments Ok {A} a.
Arguments Raise {A} e.

Definition bind {A B} (m : res A) (f : A -> res B) : res B :=
  match m with Ok a => f a | Raise e => Raise e end.
Notation "'do' x <- m ; f" := (bind m (fun x => f))
  (at level 200, x pattern, m at level 100, f at level 200).
Definition guard (b : bool) (e : exn) : res unit := if b then Ok tt else Raise e.

(** A list comprehension whose body may raise: the first failure wins. *)
Fixpoint mapM {A B} (f : A -> res B) (l : list A) : res (list B) :=
  match l with
  | [] => Ok []
  | a :: l' => do b <- f a; do bs <- mapM f l'; Ok (b :: bs)
  end.

(** [l[z]] for a Python sequence: negative indices count from the end. *)
Definition py_nth {A} (l : list A) (z : Z) : res A :=
  let n := Z.of_nat (List.length l) in
  let z' := if (z <? 0)%Z then (z + n)%Z else z in
  if ((z' <? 0) || (n <=? z'))%Z%bool then Raise IndexError
  else match nth_error l (Z.to_nat z') with
       | Some a => Ok a
       | None => Raise IndexError
       end.

(** [zip]: stops at the shorter list. *)
Fixpoint zipWith {A B C} (f : A -> B -> C) (l : list A) (m : list B) : list C :=
  match l, m with
  | a :: l', b :: m' => f a b :: zipWith f l' m'
  | _, _ => []
  end.

(** Consecutive chunks with the given sizes. *)
Fixpoint chunks {A} (sizes : list nat) (l : list A) : list (list A) :=
  match sizes with
  | [] => []
  | s :: ss => firstn s l :: chunks ss (skipn s l)
  end.

(** [np.array_split(l, n)]: [len mod n] chunks of size [len/n + 1], then chunks
    of size [len/n]; ValueError if [n = 0]. *)
Definition array_split {A} (l : list A) (n : nat) : res (list (list A)) :=
  match n with
  | O => Raise ValueError
  | _ =>
    let q := List.length l / n in
    let r := List.length l mod n in
    Ok (chunks (repeat (S q) r ++ repeat q (n - r)) l)
  end.

(** [np.split(l, n)]: like array_split, but ValueError when the division is not exact
    ([n = 0] fails with ZeroDivisionError in [N % sections]). *)
Definition np_split {A} (l : list A) (n : nat) : res (list (list A)) :=
  match n with
  | O => Raise ZeroDivisionError
  | _ => if List.length l mod n =? 0 then array_split l n else Raise ValueError
  end.

(** [l[::2]] *)
Fixpoint every_second {A} (l : list A) : list A :=
  match l with
  | [] => []
  | [a] => [a]
  | a :: _ :: l' => a :: every_second l'
  end.

(** [l[::k]] for [k > 0] *)
Definition every_nth {A} (k : nat) (d : A) (l : list A) : list A :=
  map (fun i => nth (i * k) l d) (seq 0 ((List.length l + k - 1) / k)).

(** [a.reshape(r, c)] of a flat array of length [r*c] (row major);
    ValueError when the sizes do not match. *)
Definition reshape {A} (r c : nat) (l : list A) : res (list (list A)) :=
  if List.length l =? r * c then Ok (chunks (repeat c r) l) else Raise ValueError.

(** [np.swapaxes(a, 0, 1)] / [a.transpose()] of a rectangular array with [c]
    columns.  [d] only fills the (non-existent) holes of non-rectangular input:
    numpy arrays are always rectangular. *)
Definition transpose {A} (c : nat) (d : A) (rows : list (list A)) : list (list A) :=
  map (fun j => map (fun row => nth j row d) rows) (seq 0 c).

Section NumPy.
Context {F : Type} `{Num F}.
Local Open Scope num_scope.

(** [np.linspace(0, 1, n)]: [i * (1/(n-1))], the last entry is set to 1 when [n > 1];
    [[0.]] for [n = 1]. *)
Definition linspace01 (n : nat) : list F :=
  map (fun i =>
         if (S i =? n)%nat && (1 <? n)%nat then nZ 1
         else if (1 <? n)%nat then nZ (Z.of_nat i) * (nZ 1 / nZ (Z.of_nat (n - 1)))
         else nZ (Z.of_nat i))
      (seq 0 n).

(** [max(l)] / [min(l)] of Python for a non-empty list; ValueError for an empty one. *)
Definition py_max (l : list F) : res F :=
  match l with
  | [] => Raise ValueError
  | a :: l' => Ok (fold_left (fun m x => if m <? x then x else m) l' a)
  end.
Definition py_min (l : list F) : res F :=
  match l with
  | [] => Raise ValueError
  | a :: l' => Ok (fold_left (fun m x => if x <? m then x else m) l' a)
  end.

End NumPy.
