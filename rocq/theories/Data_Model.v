(** Model of esat/data/datahandler.py: loading (377-415), categories (124-150),
    the processed data (113-122, 282-341), splitting by location (152-202) and
    merging (204-257).

    Simplifications: input and uncertainty share one positional row index (pandas
    aligns the boolean filters on the row labels); column names are unique; the
    plotting aggregates (437-488) and the summary columns Min..Max of the metrics
    table are not modelled; reading files (343-375) is not modelled. *)
From Coq Require Import List Bool ZArith String Reals Lra.
From Flocq Require Import Core.
From Verif Require Import Base Fl.
Import ListNotations.
Local Open Scope string_scope.
Local Open Scope R_scope.

Inductive derr := KeyError | ValueError | TypeError | ZeroDivisionError.
Inductive dres (A : Type) := Ok (a : A) | Raise (e : derr).
Arguments Ok {A}. Arguments Raise {A}.
Definition bind {A B} (x : dres A) (f : A -> dres B) : dres B :=
  match x with Ok a => f a | Raise e => Raise e end.

(** ** Single precision (IEEE 754 binary32, round to nearest even) *)
Definition r32 (x : R) : R := round radix2 (FLT_exp (-149) 24) ZnearestE x.
Definition cast32 (x : fl) : fl :=
  match x with
  | Fin a => if Rle_dec (bpow radix2 128) (Rabs (r32 a)) then (if Rlt_dec a 0 then NInf else PInf) else Fin (r32 a)
  | _ => x
  end.
(** line 21: sys.float_info.min, as stored into a float32 array (336-337). *)
Definition EPSILON : R := bpow radix2 (-1022).
Definition eps32 : fl := cast32 (Fin EPSILON).

(** ** Data frames *)
Inductive cell := Num (x : fl) | Txt (s : string).
Definition row := string -> cell.
Record frame := mkF { cols : list string; rows : list row }.
Definition mem (c : string) (l : list string) : bool := existsb (String.eqb c) l.

(** DataFrame.drop(labels, axis=1): all labels must exist. *)
Definition drop (labels : list string) (f : frame) : dres frame :=
  if forallb (fun c => mem c (cols f)) labels
  then Ok (mkF (filter (fun c => negb (mem c labels)) (cols f)) (rows f))
  else Raise KeyError.
Definition drop_opt (labels : option (list string)) (f : frame) : dres frame :=
  match labels with None => Ok f | Some l => drop l f end.

Section Handler.
  (** float(s) for a text cell, and numpy's round to five decimals *)
  Context (parse : string -> option fl) (round5 : R -> R).

  Definition to32 (c : cell) : option fl :=
    match c with Num x => Some (cast32 x) | Txt s => option_map cast32 (parse s) end.
  (** DataFrame.astype("float32") *)
  Definition as_float32 (f : frame) : dres frame :=
    if forallb (fun r : row => forallb (fun c => match to32 (r c) with Some _ => true | None => false end) (cols f)) (rows f)
    then Ok (mkF (cols f) (map (fun (r : row) c => match to32 (r c) with Some x => Num x | None => r c end) (rows f)))
    else Raise ValueError.

  (** ** Handlers *)
  Inductive category := Strong | Weak | Bad.
  Record handler := mkH { h_in : frame; h_un : frame; h_drop : option (list string); h_loc : option (list string);
                          h_cat : list (string * category) }.

  (** *** Loading *)
  Definition cell_nan (c : cell) : bool := match c with Num x => is_nan x | Txt _ => false end.
  Definition all_nan (cs : list string) (r : row) : bool := forallb (fun c => cell_nan (r c)) cs.
  Definition any_nan (cs : list string) (r : row) : bool := existsb (fun c => cell_nan (r c)) cs.
  Definition has_text (f : frame) : bool :=
    existsb (fun r : row => existsb (fun c => match r c with Txt _ => true | Num _ => false end) (cols f)) (rows f).
  (** boolean row filter of both frames *)
  Definition filter_rows (p : row -> row -> bool) (fi fu : frame) : frame * frame :=
    let kept := filter (fun q => p (fst q) (snd q)) (combine (rows fi) (rows fu)) in
    (mkF (cols fi) (map fst kept), mkF (cols fu) (map snd kept)).
  Definition num (c : cell) : fl := match c with Num x => x | Txt _ => NaN end.
  (** lines 403-406: signal to noise of one feature; [sum] skips NaN. *)
  Definition sn_cell (c u : fl) : fl := if fle c u then Fin 0 else fdiv (fsub c u) u.
  Definition nansum (l : list fl) : fl := fold_left fadd (filter (fun x => negb (is_nan x)) l) (Fin 0).
  Definition signal_noise (fi fu : frame) (c : string) : fl :=
    fmul (Fin (1 / INR (List.length (rows fi))))
         (nansum (map (fun q => sn_cell (num (fst q c)) (num (snd q c))) (combine (rows fi) (rows fu)))).
  (** lines 377-415; non-numeric columns cannot be subtracted (403); no row left
      divides by zero (406); every feature starts as strong (408). *)
  Definition load (fi fu : frame) (dr lc : option (list string)) : dres (handler * (string -> fl)) :=
    let '(fi', fu') := filter_rows (fun ri ru => negb (all_nan (cols fi) ri || all_nan (cols fu) ru)) fi fu in
    if has_text fi' || has_text fu' then Raise TypeError
    else if (List.length (rows fi') =? 0)%nat then Raise ZeroDivisionError
    else Ok (mkH fi' fu' dr lc (map (fun c => (c, Strong)) (cols fi')), signal_noise fi' fu').

  (** *** Categories: lines 124-150.  Assigning to an unknown label adds a row. *)
  Fixpoint cat_set (d : list (string * category)) (f : string) (c : category) : list (string * category) :=
    match d with
    | [] => [(f, c)]
    | (f', c') :: t => if String.eqb f' f then (f, c) :: t else (f', c') :: cat_set t f c
    end.
  Definition parse_category (s : string) : option category :=
    if String.eqb s "strong" then Some Strong else if String.eqb s "weak" then Some Weak
    else if String.eqb s "bad" then Some Bad else None.
  Definition set_category (h : handler) (feature : option string) (cat : string) : bool * handler :=
    match feature, parse_category cat with
    | Some f, Some c => (true, mkH (h_in h) (h_un h) (h_drop h) (h_loc h) (cat_set (h_cat h) f c))
    | _, _ => (false, h)
    end.

  (** *** Processed data: lines 282-341. *)
  Definition is_cat (c : category) (q : string * category) : bool :=
    match snd q, c with Strong, Strong | Weak, Weak | Bad, Bad => true | _, _ => false end.
  (** lines 303-306 *)
  Fixpoint drop_each (l : list string) (fi fu : frame) : dres (frame * frame) :=
    match l with
    | [] => Ok (fi, fu)
    | b :: t => bind (drop [b] fi) (fun fi' => bind (drop [b] fu) (fun fu' => drop_each t fi' fu'))
    end.
  (** lines 309-310 *)
  Definition triple (w : string) (f : frame) : dres frame :=
    if mem w (cols f)
    then Ok (mkF (cols f) (map (fun (r : row) c => if String.eqb c w then match r c with Num x => Num (cast32 (fmul x (Fin 3))) | t => t end else r c) (rows f)))
    else Raise KeyError.
  Fixpoint triple_each (l : list string) (f : frame) : dres frame :=
    match l with [] => Ok f | w :: t => bind (triple w f) (triple_each t) end.
  (** lines 336-340 *)
  Definition fix_zero (x : fl) : fl := match x with Fin a => if Req_EM_T a 0 then eps32 else x | _ => x end.
  Definition values (f : frame) : list (list fl) := map (fun r : row => map (fun c => cast32 (fix_zero (num (r c)))) (cols f)) (rows f).
  Record processed := mkP { p_features : list string; p_in : list (list fl); p_un : list (list fl) }.
  Definition set_dataset (h : handler) : dres processed :=
    bind (bind (drop_opt (h_drop h) (h_in h)) as_float32) (fun fi =>
    bind (bind (drop_opt (h_drop h) (h_un h)) as_float32) (fun fu =>
    bind (drop_opt (h_loc h) fi) (fun fi =>
    bind (drop_opt (h_loc h) fu) (fun fu =>
    bind (drop_each (map fst (filter (is_cat Bad) (h_cat h))) fi fu) (fun q => let '(fi, fu) := q in
    bind (triple_each (map fst (filter (is_cat Weak) (h_cat h))) fu) (fun fu =>
    let '(fi', fu') := filter_rows (fun ri ru => negb (any_nan (cols fi) ri) || negb (any_nan (cols fu) ru)) fi fu in
    Ok (mkP (cols fi') (values fi') (values fu')))))))).
  (** lines 113-122: the stored frames and categories are left as they are. *)
  Definition get_data (h : handler) : dres processed * handler := (set_dataset h, h).

  (** *** Splitting: lines 152-202 *)
  Definition fl_eq_dec (x y : fl) : {x = y} + {x <> y}.
  Proof.
    destruct x as [a| | |], y as [b| | |]; try (left; reflexivity); try (right; discriminate).
    destruct (Req_EM_T a b) as [E|E]; [left; subst; reflexivity|right; intros [=]; contradiction].
  Defined.
  Definition cell_eq_dec (a b : cell) : {a = b} + {a <> b}.
  Proof.
    destruct a as [x|s], b as [y|t]; try (right; discriminate).
    - destruct (fl_eq_dec x y) as [E|E]; [left; subst; reflexivity|right; intros [=]; contradiction].
    - destruct (string_dec s t) as [E|E]; [left; subst; reflexivity|right; intros [=]; contradiction].
  Defined.
  (** drop_duplicates: first occurrences; missing values count as equal. *)
  Fixpoint dedup (seen : list (list cell)) (l : list (list cell)) : list (list cell) :=
    match l with
    | [] => []
    | k :: t => if in_dec (list_eq_dec cell_eq_dec) k seen then dedup seen t else k :: dedup (k :: seen) t
    end.
  (** [==] between cells: NaN differs from everything. *)
  Definition cell_eqb (a b : cell) : bool :=
    match a, b with
    | Num x, Num y => if fl_eq_dec x y then negb (is_nan x) else false
    | Txt s, Txt t => String.eqb s t
    | _, _ => false
    end.
  Fixpoint cells_eqb (a b : list cell) : bool :=
    match a, b with [], [] => true | x :: a', y :: b' => cell_eqb x y && cells_eqb a' b' | _, _ => false end.
  Definition same_set (a b : list string) : bool := forallb (fun c => mem c b) a && forallb (fun c => mem c a) b.
  Definition round_cell (c : cell) : cell := match c with Num (Fin x) => Num (Fin (round5 x)) | _ => c end.
  Fixpoint mapM {A B} (f : A -> dres B) (l : list A) : dres (list B) :=
    match l with [] => Ok [] | a :: t => bind (f a) (fun b => bind (mapM f t) (fun bs => Ok (b :: bs))) end.
  Definition split_locations (h : handler) : dres (list (list cell * handler)) :=
    match h_loc h with
    | None => Ok []
    | Some lc =>
        if negb (forallb (fun c => mem c (cols (h_in h))) lc) then Ok []
        else
          let ll := same_set lc ["latitude"; "longitude"] in
          let key (r : row) := map (fun c => if ll then round_cell (r c) else r c) lc in
          let key' (r : row) := map (fun c => if ll then round_cell (round_cell (r c)) else r c) lc in
          mapM (fun loc =>
                  let '(fi, fu) := filter_rows (fun ri _ => cells_eqb (key' ri) loc) (h_in h) (h_un h) in
                  bind (load fi fu None None) (fun q => Ok (loc, fst q)))
               (dedup [] (map key (rows (h_in h))))
    end.

  (** *** Merging: lines 204-257 *)
  Definition label_frame (label : string) (f : frame) : frame :=
    mkF (if mem "source_label" (cols f) then cols f else (cols f ++ ["source_label"])%list)
        (map (fun (r : row) c => if String.eqb c "source_label" then Txt label else r c) (rows f)).
  Definition merge (h : handler) (hs : list handler) (labels : list string) : bool * handler :=
    if ((List.length hs =? 0) || negb (List.length hs =? List.length labels))%nat then (false, h)
    else if negb (forallb (fun d => if list_eq_dec string_dec (cols (h_in d)) (cols (h_in h)) then true else false) hs) then (false, h)
    else
      let all := (combine hs labels ++ [(h, "self")])%list in
      let cat f := mkF (cols (label_frame "self" (f h))) (flat_map (fun q => rows (label_frame (snd q) (f (fst q)))) all) in
      (true, mkH (cat h_in) (cat h_un) (h_drop h) (h_loc h) (h_cat h)).
End Handler.
