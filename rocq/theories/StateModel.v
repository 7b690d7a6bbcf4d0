(** Model of statevars.py: StateVariableManager and StateVariableContainer. Arrays are flattened to
    lists of cells; units, names and other descriptive metadata are one opaque string. *)
From Coq Require Import List Bool Arith ZArith Reals.
From Coq Require Export String Ascii.
From Verif Require Import Common.
Import ListNotations.
Open Scope string_scope.

Inductive exn := CategoryError | ValueError | KeyError | AttributeError.
Inductive dtype := TFloat | TInt | TBool | TOther.
Inductive cell := CFloat (x : num) | CInt (z : Z) | CBool (b : bool).
(** statevars.py:8-14 _DTYPE_INIT_VALS: keys float, int, bool and the dtypes float64 and int64 — not
    the dtype of bool arrays. [init_of_type]: looked up by Python type (create_empty_array, 480-498);
    [init_of_array]: looked up by array dtype (reset, 128). *)
Definition init_of_type (d : dtype) : option cell :=
  match d with
  | TFloat => Some (CFloat None) | TInt => Some (CInt 0) | TBool => Some (CBool false) | TOther => None
  end.
Definition init_of_array (d : dtype) : option cell :=
  match d with TFloat => Some (CFloat None) | TInt => Some (CInt 0) | TBool | TOther => None end.

(** statevars.py:219-262 StateVariableDefinition *)
Record vardef := VD { v_dtype : dtype; v_dim3 : nat; v_retain : bool; v_descr : string }.
(** A variable of a container: definition and, once created, its array. *)
Record entry := EN { e_def : vardef; e_arr : option (list cell) }.
(** Python dicts are insertion ordered. *)
Definition dict (A : Type) := list (string * A).
Fixpoint dget {A} (d : dict A) (k : string) : option A :=
  match d with [] => None | (k', v) :: d' => if k' =? k then Some v else dget d' k end.
Fixpoint dset {A} (d : dict A) (k : string) (v : A) : dict A :=
  match d with
  | [] => [(k, v)]
  | (k', v') :: d' => if k' =? k then (k', v) :: d' else (k', v') :: dset d' k v
  end.
Definition container := dict entry.
(** 17-34: [m_cats] is _categories, [m_attrs] the containers stored as attributes. *)
Record manager := MG { m_rows : nat; m_cols : nat; m_cats : list string; m_attrs : dict container }.
Definition new_manager (rows cols : nat) : manager := MG rows cols [] [].

(** str.isidentifier, ASCII only *)
Definition ident_start (c : ascii) : bool :=
  let n := nat_of_ascii c in
  ((65 <=? n) && (n <=? 90) || (97 <=? n) && (n <=? 122) || (n =? 95))%nat.
Definition ident_char (c : ascii) : bool :=
  let n := nat_of_ascii c in (ident_start c || (48 <=? n) && (n <=? 57))%nat.
Fixpoint all_chars (p : ascii -> bool) (s : string) : bool :=
  match s with EmptyString => true | String c s' => p c && all_chars p s' end.
Definition is_identifier (s : string) : bool :=
  match s with EmptyString => false | String c s' => ident_start c && all_chars ident_char s' end.

(** list.sort *)
Fixpoint insert (s : string) (l : list string) : list string :=
  match l with [] => [s] | x :: l' => if s <=? x then s :: l else x :: insert s l' end.
Definition sort (l : list string) : list string := fold_right insert [] l.

(** 43-62 add_category. The name is appended to _categories before setattr, which fails for the
    read-only property "categories". *)
Definition add_category (m : manager) (c : string) : manager * option exn :=
  if existsb (String.eqb c) (m_cats m) then (m, Some CategoryError)
  else if negb (is_identifier c) then (m, Some CategoryError)
  else
    let cats := sort (m_cats m ++ [c]) in
    if c =? "categories" then (MG (m_rows m) (m_cols m) cats (m_attrs m), Some AttributeError)
    else (MG (m_rows m) (m_cols m) cats (dset (m_attrs m) c []), None).

(** str.split(".") *)
Fixpoint split_dot (s : string) : list string :=
  match s with
  | EmptyString => [""]
  | String c s' =>
      if Ascii.eqb c "." then "" :: split_dot s'
      else match split_dot s' with h :: t => String c h :: t | [] => [] end
  end.
(** 64-80 parse: with a dot, exactly two parts must result from splitting. *)
Definition parse (s : string) : exn + string * option string :=
  match split_dot s with
  | [c] => inr (c, None)
  | [c; v] => inr (c, Some v)
  | _ => inl ValueError
  end.
(** 82-102 __getitem__: a container or the array of a variable *)
Definition getitem (m : manager) (key : string) : exn + (container + list cell) :=
  match parse key with
  | inl e => inl e
  | inr (c, None) => match dget (m_attrs m) c with Some k => inr (inl k) | None => inl AttributeError end
  | inr (c, Some v) =>
      match dget (m_attrs m) c with
      | None => inl AttributeError
      | Some k => match dget k v with
                  | Some (EN _ (Some a)) => inr (inr a)
                  | _ => inl KeyError
                  end
      end
  end.
(** 133-146 meta *)
Definition meta (m : manager) (key : string) : exn + vardef :=
  match parse key with
  | inr (c, Some v) =>
      match dget (m_attrs m) c with
      | None => inl AttributeError
      | Some k => match dget k v with Some e => inr (e_def e) | None => inl KeyError end
      end
  | inr (c, None) => match dget (m_attrs m) c with Some _ => inl KeyError | None => inl AttributeError end
  | inl e => inl e
  end.
(** 165-216 add_variable: only the definition is stored; a definition under the same name is replaced. *)
Definition add_variable (k : container) (name : string) (d : vardef) : container :=
  dset k name (EN d (match dget k name with Some e => e_arr e | None => None end)).

(** Loops over the variables of a container and over the categories, stopped by an exception. *)
Fixpoint each_var (f : entry -> entry * option exn) (k : container) : container * option exn :=
  match k with
  | [] => ([], None)
  | (n, e) :: k' =>
      match f e with
      | (e', Some x) => ((n, e') :: k', Some x)
      | (e', None) => let (k'', r) := each_var f k' in ((n, e') :: k'', r)
      end
  end.
Fixpoint each_cat (f : entry -> entry * option exn) (cats : list string) (a : dict container)
  : dict container * option exn :=
  match cats with
  | [] => (a, None)
  | c :: cats' =>
      match dget a c with
      | None => (a, Some AttributeError)
      | Some k =>
          match each_var f k with
          | (k', Some x) => (dset a c k', Some x)
          | (k', None) => each_cat f cats' (dset a c k')
          end
      end
  end.
(** 104-117 initialize *)
Definition init_var (rows cols : nat) (e : entry) : entry * option exn :=
  let d := e_def e in
  match init_of_type (v_dtype d) with
  | None => (e, Some KeyError)
  | Some c =>
      let size := match v_dim3 d with O => (rows * cols)%nat | n => (n * (rows * cols))%nat end in
      (EN d (Some (repeat c size)), None)
  end.
Definition initialize (m : manager) : manager * option exn :=
  let (a, r) := each_cat (init_var (m_rows m) (m_cols m)) (m_cats m) (m_attrs m) in
  (MG (m_rows m) (m_cols m) (m_cats m) a, r).
(** 119-131 reset: arr.fill(_DTYPE_INIT_VALS[arr.dtype]) for variables without [retain]. The dtype of
    the array is that of the definition (it was created from it). *)
Definition reset_var (e : entry) : entry * option exn :=
  if v_retain (e_def e) then (e, None)
  else match e_arr e with
       | None => (e, Some KeyError)
       | Some a =>
           match init_of_array (v_dtype (e_def e)) with
           | None => (e, Some KeyError)
           | Some c => (EN (e_def e) (Some (repeat c (List.length a))), None)
           end
       end.
Definition reset (m : manager) : manager * option exn :=
  let (a, r) := each_cat reset_var (m_cats m) (m_attrs m) in
  (MG (m_rows m) (m_cols m) (m_cats m) a, r).
