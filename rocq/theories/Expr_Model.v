(** Model of how esat/rotational/constrained.py reads the text of expressions:
    _map_expressions (549-579), on strings of 8-bit characters.  [to_float] is
    Python's [float] on strings: an argument, [None] for ValueError.  [int] is
    modelled for ASCII text (sign, digits, single underscores, surrounding white
    space).  What is done with the terms is in Constr_Model. *)
From Coq Require Import List Bool ZArith Ascii String Reals.
From Verif Require Import Base Constr_Model.
Import ListNotations.
Local Open Scope string_scope.

Inductive exn := IndexErr | ValueErr | TypeErr | AttrErr | KeyErr.

(** ** Python string operations *)
Definition cons_head (c : ascii) (l : list string) : list string :=
  match l with [] => [] | x :: t => String c x :: t end.
(** str.split(c) *)
Fixpoint split (sep : ascii) (s : string) : list string :=
  match s with
  | EmptyString => [""]
  | String c t => if Ascii.eqb c sep then "" :: split sep t else cons_head c (split sep t)
  end.
(** re.split("[...]+", s): the pieces between maximal runs of separators *)
Definition starts (p : ascii -> bool) (s : string) : bool := match s with String d _ => p d | EmptyString => false end.
Fixpoint re_split (p : ascii -> bool) (s : string) : list string :=
  match s with
  | EmptyString => [""]
  | String c t => if p c then if starts p t then re_split p t else "" :: re_split p t
                  else cons_head c (re_split p t)
  end.
(** l[1:-1] *)
Definition inner {A : Type} (l : list A) : list A := removelast (tl l).
(** re.findall(r'\[(.*?)]', s)[0]; the dot does not match a line feed *)
Definition newline : ascii := "010"%char.
Fixpoint until_close (s : string) : option string :=
  match s with
  | EmptyString => None
  | String c t => if Ascii.eqb c "]" then Some ""
                  else if Ascii.eqb c newline then None
                  else match until_close t with Some x => Some (String c x) | None => None end
  end.
Fixpoint first_bracket (s : string) : option string :=
  match s with
  | EmptyString => None
  | String c t => if Ascii.eqb c "[" then match until_close t with Some x => Some x | None => first_bracket t end
                  else first_bracket t
  end.
(** int(s) *)
Definition is_space (c : ascii) : bool :=
  let n := nat_of_ascii c in ((9 <=? n) && (n <=? 13) || (28 <=? n) && (n <=? 32))%nat.
Definition digit (c : ascii) : option Z :=
  let n := nat_of_ascii c in if ((48 <=? n) && (n <=? 57))%nat then Some (Z.of_nat (n - 48)) else None.
Fixpoint only_space (s : string) : bool := match s with EmptyString => true | String c t => is_space c && only_space t end.
(** [digits s v ok]: the value read so far is [v]; [ok] if the last character was a digit *)
Fixpoint digits (s : string) (v : Z) (ok : bool) : option Z :=
  match s with
  | EmptyString => if ok then Some v else None
  | String c t => match digit c with
                  | Some d => digits t (10 * v + d)%Z true
                  | None => if ok && Ascii.eqb c "_" then digits t v false
                            else if ok && only_space s then Some v else None
                  end
  end.
Fixpoint py_int (s : string) : option Z :=
  match s with
  | EmptyString => None
  | String c t => if is_space c then py_int t
                  else if Ascii.eqb c "-" then match digits t 0 false with Some v => Some (- v)%Z | None => None end
                  else if Ascii.eqb c "+" then digits t 0 false
                  else digits s 0 false
  end.

(** ** Terms *)
Definition paren (c : ascii) : bool := Ascii.eqb c "(" || Ascii.eqb c ")".
Definition colon_bar (c : ascii) : bool := Ascii.eqb c ":" || Ascii.eqb c "|".
Record term := mkTerm { t_label : string; t_i : Z; t_j : Z; t_kind : string; t_coef : R }.

Section Read.
  Context (to_float : string -> option R).
  (** lines 561-564 *)
  Definition read_term (neg : bool) (e : string) : exn + term :=
    match first_bracket e with
    | None => inl IndexErr
    | Some lab =>
      let parts := re_split colon_bar lab in
      match nth_error parts 1 with
      | None => inl IndexErr
      | Some p1 => match py_int p1 with
        | None => inl ValueErr
        | Some i => match nth_error parts 3 with
          | None => inl IndexErr
          | Some p3 => match py_int p3 with
            | None => inl ValueErr
            | Some j => match to_float (hd "" (split "*" e)) with
              | None => inl ValueErr
              | Some c => inr (mkTerm lab i j (nth 2 parts "") (c * (if neg then -1 else 1))%R)
              end
            end
          end
        end
      end
    end.
  (** lines 557-577 *)
  Fixpoint read_terms (neg : bool) (l : list string) : exn + list term :=
    match l with
    | [] => inr []
    | e :: rest =>
      let next := String.eqb e "-" in
      if (1 <? String.length e)%nat
      then match read_term neg e with
           | inl x => inl x
           | inr t => match read_terms next rest with inl x => inl x | inr ts => inr (t :: ts) end
           end
      else read_terms next rest
    end.
  (** lines 553-558, 578: the terms of one expression and its dQ *)
  Definition read (s : string) : exn + (list term * R) :=
    let full := split "=" s in
    match nth_error full 1 with
    | None => inl IndexErr
    | Some rhs => match nth_error (split "," rhs) 1 with
      | None => inl IndexErr
      | Some q => match to_float q with
        | None => inl ValueErr
        | Some dQ => match read_terms false (inner (re_split paren (hd "" full))) with
          | inl x => inl x
          | inr ts => inr (ts, dQ)
          end
        end
      end
    end.
  Fixpoint read_all (l : list string) : exn + list (list term * R) :=
    match l with
    | [] => inr []
    | s :: t => match read s with
                | inl x => inl x
                | inr e => match read_all t with inl x => inl x | inr es => inr (e :: es) end
                end
    end.
End Read.

(** ** Elements are identified by their label (565-571): the entries of
    expression_mapped in order, the position being coef_index *)
Record entry := mkEntry { e_label : string; e_i : Z; e_j : Z; e_kind : string; e_coefs : list (R * nat) }.
Fixpoint map_add (mp : list entry) (t : term) (i : nat) : list entry :=
  match mp with
  | [] => [mkEntry (t_label t) (t_i t) (t_j t) (t_kind t) [(t_coef t, i)]]
  | e :: l => if String.eqb (e_label e) (t_label t)
              then mkEntry (e_label e) (e_i e) (e_j e) (e_kind e) (e_coefs e ++ [(t_coef t, i)]) :: l
              else e :: map_add l t i
  end.
Fixpoint map_all (exprs : list (list term * R)) (i : nat) (mp : list entry) : list entry :=
  match exprs with
  | [] => mp
  | (ts, _) :: l => map_all l (S i) (fold_left (fun mp t => map_add mp t i) ts mp)
  end.
