(** * Common ground of all models: floats, strings, binary search, association lists. *)
From Coq Require Export List Arith ZArith NArith Lia Bool String Ascii Permutation Sorted.
From Coq Require Export Floats.SpecFloat.
From Coq Require Export ZifyBool ZifyNat ZifyN.
Export ListNotations.
Open Scope list_scope.
Open Scope nat_scope.

Arguments N.add : simpl never.
Arguments N.sub : simpl never.
Arguments N.mul : simpl never.
Arguments Z.add : simpl never.
Arguments Z.sub : simpl never.
Arguments Z.mul : simpl never.
Arguments Z.quot : simpl never.
Arguments Z.div : simpl never.
Arguments Z.modulo : simpl never.

(** ** IEEE 754 binary64.
    Rust's [f64] is modelled by the standard library's [spec_float] with
    precision 53 and exponent bound 1024; all operations are Gallina functions
    of the standard library, with NaN, infinities and signed zeros. *)
Definition f64 := spec_float.
Definition fprec : Z := 53%Z.
Definition femax : Z := 1024%Z.
Definition fadd (x y : f64) : f64 := SFadd fprec femax x y.
Definition fsub (x y : f64) : f64 := SFsub fprec femax x y.
Definition fmul (x y : f64) : f64 := SFmul fprec femax x y.
Definition fdiv (x y : f64) : f64 := SFdiv fprec femax x y.
(** partial_cmp on f64: None iff one side is NaN *)
Definition fcmp (x y : f64) : option comparison := SFcompare x y.
Definition feqb (x y : f64) : bool := SFeqb x y.
Definition fltb (x y : f64) : bool := SFltb x y.
Definition fleb (x y : f64) : bool := SFleb x y.
(** the float nearest to an integer ("as f64") *)
Definition fofZ (z : Z) : f64 := binary_normalize fprec femax z 0 false.
(** the float nearest to n/d *)
Definition fratio (n d : Z) : f64 := fdiv (fofZ n) (fofZ d).
Definition fzero : f64 := S754_zero false.
Definition fone : f64 := fofZ 1.
Definition fnan : f64 := S754_nan.

(** ** Byte strings.  A Rust [String]/[&str] is a Coq [string] of bytes. *)
Definition seqb := String.eqb.
Definition scmp := String.compare.

(** ** Association lists without duplicate keys, standing for hash maps. *)
Section AList.
  Context {K V : Type} (keqb : K -> K -> bool).

  Fixpoint alookup (k : K) (m : list (K * V)) : option V :=
    match m with
    | [] => None
    | (k', v) :: r => if keqb k k' then Some v else alookup k r
    end.

  (** HashMap::insert: replaces the value of an existing key, otherwise adds
      the pair (at the end of the list: the place of a new key in the iteration
      order of a Rust map is unspecified). *)
  Fixpoint ainsert (k : K) (v : V) (m : list (K * V)) : list (K * V) :=
    match m with
    | [] => [(k, v)]
    | (k', v') :: r => if keqb k k' then (k', v) :: r else (k', v') :: ainsert k v r
    end.

  (** HashMap::remove *)
  Fixpoint aremove (k : K) (m : list (K * V)) : list (K * V) :=
    match m with
    | [] => []
    | (k', v') :: r => if keqb k k' then r else (k', v') :: aremove k r
    end.

  Definition akeys (m : list (K * V)) : list K := map fst m.
  Definition amem (k : K) (m : list (K * V)) : bool :=
    match alookup k m with Some _ => true | None => false end.
End AList.

(** ** Binary search of the Rust standard library ([slice::binary_search_by]):
    repeated halving; [f] compares the probed element with the target. *)
Inductive found := Found (i : nat) | Missing (i : nat).

Section BSearch.
  Context {A : Type} (f : A -> comparison).

  Fixpoint bs_loop (l : list A) (fuel base size : nat) : nat :=
    match fuel with
    | O => base
    | S fuel' =>
        if size <=? 1 then base
        else
          let half := size / 2 in
          let mid := base + half in
          let base' := match nth_error l mid with
                       | Some x => match f x with Gt => base | _ => mid end
                       | None => base
                       end in
          bs_loop l fuel' base' (size - half)
    end.

  Definition bsearch (l : list A) : found :=
    match l with
    | [] => Missing 0
    | _ =>
        let base := bs_loop l (List.length l) 0 (List.length l) in
        match nth_error l base with
        | Some x => match f x with
                    | Eq => Found base
                    | Lt => Missing (base + 1)
                    | Gt => Missing base
                    end
        | None => Missing base
        end
    end.
End BSearch.

(** Vec::insert at position [i] (callers keep [i <= length l]). *)
Fixpoint insert_at {A} (i : nat) (x : A) (l : list A) : list A :=
  match i, l with
  | O, _ => x :: l
  | S i', y :: r => y :: insert_at i' x r
  | S _, [] => [x]
  end.

(** Vec element update at position [i]. *)
Fixpoint update_at {A} (i : nat) (g : A -> A) (l : list A) : list A :=
  match l, i with
  | [], _ => []
  | y :: r, O => g y :: r
  | y :: r, S i' => y :: update_at i' g r
  end.

(** Vec::remove at position [i]. *)
Fixpoint remove_at {A} (i : nat) (l : list A) : list A :=
  match l, i with
  | [], _ => []
  | _ :: r, O => r
  | y :: r, S i' => y :: remove_at i' r
  end.

Definition sumN (l : list N) : N := fold_right N.add 0%N l.

Arguments fofZ : simpl never.
Arguments fone : simpl never.
Arguments fratio : simpl never.
Arguments fadd : simpl never.
Arguments fsub : simpl never.
Arguments fmul : simpl never.
Arguments fdiv : simpl never.
Arguments fcmp : simpl never.
Arguments feqb : simpl never.
Arguments fleb : simpl never.
Arguments fltb : simpl never.
