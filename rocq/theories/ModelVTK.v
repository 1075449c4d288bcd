(** Solution files (/repo/file_io/vtk_solution_writer.cpp, vtk_solution_reader.cpp).

    A file is the XML tree the written text denotes, tags, attributes and text contents
    included (ModelXML has the text itself and the parser of tinyxml2; C81 relates them).  The text contents and
    the attributes are modelled as text.  Printing and reading a double are parameters:
    [show] is [operator<<] with std::scientific and precision 16 (lines 69, 86, 97, 150, 167,
    180), [show6] with std::scientific and the default precision 6 (lines 69, 75, 150, 156),
    [read] is boost::lexical_cast<double>. *)
From Coq Require Import ZArith List String Ascii Bool.
Import ListNotations.
From Verif Require Import Outcome ZList Num Kernel ModelIndex ModelDisc3D ModelDisc2D ModelText.
Local Open Scope string_scope.
Local Open Scope list_scope.
Local Open Scope Z_scope.

Inductive xml : Type :=
  Elem (name : string) (attrs : list (string * string)) (text : string) (kids : list xml).

Definition elem_name (x : xml) : string := let 'Elem n _ _ _ := x in n.
Definition elem_attrs (x : xml) : list (string * string) := let 'Elem _ a _ _ := x in a.
Definition elem_kids (x : xml) : list xml := let 'Elem _ _ _ k := x in k.

(** [FirstChildElement(name)]; the callers use the pointer without a check. *)
Definition first_child (n : string) (kids : list xml) : option xml :=
  find (fun x => String.eqb (elem_name x) n) kids.
Fixpoint descend (kids : list xml) (path : list string) (last : xml) : res xml :=
  match path with
  | [] => Ok last
  | n :: path' => match first_child n kids with
                  | Some x => descend (elem_kids x) path' x
                  | None => UB
                  end
  end.
(** [GetText()] is null for an element without text; the callers make a string of it. *)
Definition get_text (x : xml) : res string :=
  let 'Elem _ _ t _ := x in match t with EmptyString => UB | _ => Ok t end.
(** [FirstAttribute()->Value()] *)
Definition first_attribute (x : xml) : res string :=
  match elem_attrs x with [] => UB | (_, v) :: _ => Ok v end.

Section VTK.
  Context {V : Type} `{N : Num V}.
  Variables (show show6 : V -> string) (read : string -> res V).
  Local Open Scope res_scope.

  (** The entries of getIterationStatus the writer uses (time_integrator.cpp); the iteration
      is an int stored as a double. *)
  Record file_status : Type := { fs_iter : Z; fs_time : V; fs_dt : V }.

  (** The cells and the vertices in the order of the writer's loops
      (84-85, 95-96; 164-166, 177-179). *)
  Definition file_order2 (ni : Z) : list (Z * Z) :=
    flat_map (fun j => map (fun i => (i, j)) (zrange 0 ni)) (zrange 0 ni).
  Definition file_order3 (ni nj nk : Z) : list (Z * Z * Z) :=
    flat_map (fun k => flat_map (fun j => map (fun i => (i, j, k)) (zrange 0 ni)) (zrange 0 nj)) (zrange 0 nk).

  Definition cat (l : list string) : string := fold_right append ""%string l.

  (** The document (65-105, 146-190): extents, field data, cell data and points.  The parser drops the
      blank text of PointData. *)
  Definition vts_document (extent : string) (st : file_status) (cells points : string) : xml :=
    Elem "VTKFile" [("type", "StructuredGrid"); ("version", "1.0"); ("byte_order", "LittleEndian")]%string "" [
      Elem "StructuredGrid" [("WholeExtent"%string, extent)] "" [
        Elem "FieldData" [] "" [
          Elem "DataArray" [("type", "Float64"); ("Name", "TimeValue"); ("NumberOfTuples", "1")]%string
            (nl ++ show6 (fs_time st) ++ nl ++ "     ") [];
          Elem "DataArray" [("type", "Int32"); ("Name", "IterationValue"); ("NumberOfTuples", "1")]%string
            (nl ++ dec (fs_iter st) ++ nl ++ "     ") [];
          Elem "DataArray" [("type", "Float64"); ("Name", "TimeStepSize"); ("NumberOfTuples", "1")]%string
            (nl ++ show6 (fs_dt st) ++ nl ++ "     ") []];
        Elem "Piece" [("Extent"%string, " " ++ extent)%string] "" [
          Elem "PointData" [] "" [];
          Elem "CellData" [] "" [
            Elem "DataArray" [("type", "Float64"); ("Name", "c"); ("format", "ascii")]%string cells []];
          Elem "Points" [] "" [
            Elem "DataArray" [("type", "Float64"); ("Name", "Points"); ("NumberOfComponents", "3"); ("format", "ascii")]%string
              points []]]]].

  (** The text of the cell data (83-89, 163-171) and of the points (92-101, 174-186). *)
  Definition cells_text (vals : list V) : string :=
    (nl ++ cat (map (fun v => show v ++ nl) vals) ++ nl ++ "    ")%string.
  Definition points_text (lines : list string) : string := (nl ++ cat lines ++ "        ")%string.
  Definition extent_text (a b c : Z) : string := ("0 " ++ dec a ++ " 0 " ++ dec b ++ " 0 " ++ dec c)%string.

  (** write_solution_to_vtk_2d (34-106) *)
  Definition write2 (st : file_status) (d : disc2 V) (c : list V) : res (list xml) :=
    let ni := d2_ni d in
    let nh := d2_nhalo d in
    vals <- mapM (fun '(i, j) => of_opt (zget c (ix2 d i j))) (file_order2 ni) ;;
    pts <- mapM (fun '(i, j) =>
             x <- of_opt (zget (d2_xv d) (get1Dindex i j nh (ni + 1 + 2 * nh))) ;;
             y <- of_opt (zget (d2_yv d) (get1Dindex i j nh (ni + 1 + 2 * nh))) ;;
             Ok (show x ++ " " ++ show y ++ " 0.0" ++ nl)%string) (file_order2 (ni + 1)) ;;
    Ok [vts_document (extent_text ni ni 0) st (cells_text vals) (points_text pts)].

  (** write_solution_to_vtk_3d (109-191) *)
  Definition write3 (st : file_status) (d : disc3 V) (c : list V) : res (list xml) :=
    let '(ni, nj, nk, nh) := (d3_ni d, d3_nj d, d3_nk d, d3_nhalo d) in
    vals <- mapM (fun '(i, j, k) => of_opt (zget c (ix3 d i j k))) (file_order3 ni nj nk) ;;
    pts <- mapM (fun '(i, j, k) =>
             let q := get1DindexFrom3D i j k nh (nj + 1 + 2 * nh) (nk + 1 + 2 * nh) in
             x <- of_opt (zget (d3_xv d) q) ;;
             y <- of_opt (zget (d3_yv d) q) ;;
             z <- of_opt (zget (d3_zv d) q) ;;
             Ok (show x ++ " " ++ show y ++ " " ++ show z ++ nl)%string)
           (file_order3 (ni + 1) (nj + 1) (nk + 1)) ;;
    Ok [vts_document (extent_text ni nj nk) st (cells_text vals) (points_text pts)].

  (** trim and split of a text (reader lines 31-36, 72-75, 86-88, 136-139, 194-196). *)
  Definition blank (c : ascii) : bool := any_of (String tab (" " ++ nl)) c.
  Definition tokens_of (s : string) : list string := split_compress blank (trim_if blank s).
  Definition blank_attr (c : ascii) : bool := any_of (String tab " ") c.
  Definition tokens_of_attr (s : string) : list string := split_compress blank_attr (trim_if blank_attr s).

  Fixpoint triples (l : list V) : res (list V * list V * list V) :=
    match l with
    | [] => Ok ([], [], [])
    | x :: y :: z :: l' => '(xs, ys, zs) <- triples l' ;; Ok (x :: xs, y :: ys, z :: zs)
    | _ => UB
    end.

  (** [std::min_element], [std::max_element], dereferenced. *)
  Definition min_element (l : list V) : res V :=
    match l with [] => UB | x :: l' => Ok (fold_left (fun m v => if nltb v m then v else m) l' x) end.
  Definition max_element (l : list V) : res V :=
    match l with [] => UB | x :: l' => Ok (fold_left (fun m v => if nltb m v then v else m) l' x) end.

  Definition piece_path : list string := ["VTKFile"; "StructuredGrid"; "Piece"]%string.
  Definition cells_path : list string := ["VTKFile"; "StructuredGrid"; "Piece"; "CellData"; "DataArray"]%string.
  Definition points_path : list string := ["VTKFile"; "StructuredGrid"; "Piece"; "Points"; "DataArray"]%string.
  Definition field_path : list string := ["VTKFile"; "StructuredGrid"]%string.
  Definition no_elem : xml := Elem "" [] "" [].

  (** [tokens[i]] of a vector of strings. *)
  Definition token (l : list string) (i : Z) : res string := of_opt (zget l i).

  (** getCartesianDomain (reader 16-117).  [raw] is the uninitialised domain definition of
      line 50: only the fields assigned there are set.  The second component is dimension_. *)
  Definition read_domain (doc : list xml) (raw : domain V) : res (domain V * Z) :=
    piece <- descend doc piece_path no_elem ;;
    attr <- first_attribute piece ;;
    let toks := tokens_of_attr attr in
    t0 <- token toks 0 ;; nxbeg <- lexical_int t0 ;;
    t1 <- token toks 1 ;; nxend <- lexical_int t1 ;;
    t2 <- token toks 2 ;; nybeg <- lexical_int t2 ;;
    t3 <- token toks 3 ;; nyend <- lexical_int t3 ;;
    t4 <- token toks 4 ;; nzbeg <- lexical_int t4 ;;
    t5 <- token toks 5 ;; nzend <- lexical_int t5 ;;
    if negb (nxbeg =? 0) then Fatal
    else if negb (nybeg =? 0) then Fatal
    else if negb (nzbeg =? 0) then Fatal
    else
      let '(nz_, dimension) := if nzend =? nzbeg then (0, 2) else (nzend, 3) in
      cells <- descend doc cells_path no_elem ;;
      _ <- get_text cells ;;
      points <- descend doc points_path no_elem ;;
      ptext <- get_text points ;;
      let ptoks := tokens_of ptext in
      let npoints := zlen ptoks / 3 in
      if (dimension =? 2) && negb (npoints =? (nxend + 1) * (nyend + 1)) then Fatal
      else if (dimension =? 3) && negb (npoints =? (nxend + 1) * (nyend + 1) * (nzend + 1)) then Fatal
      else
        vals <- mapM read ptoks ;;
        '(xs, ys, zs) <- triples vals ;;
        x0 <- min_element xs ;; x1 <- max_element xs ;; y0 <- min_element ys ;; z0 <- min_element zs ;;
        Ok ({| nx := nxend; ny := nyend; nz := nz_; xbeg := x0; xend := x1; ybeg := y0; yend := yend raw;
               zbeg := z0; zend := zend raw; xbc := xbc raw; ybc := ybc raw; zbc := zbc raw;
               nhalo := nhalo raw |}, dimension).

  (** The state the solution is read into: of a 2D or of a 3D discretization. *)
  Inductive target : Type := Target2 (d : disc2 V) (c : list V) | Target3 (d : disc3 V) (c : list V).

  (** setSolution (reader 120-173).  [dynamic_cast] to a reference throws on the wrong kind of
      state; [solution[solidx]] beyond the values read is undefined. *)
  Definition set_solution (doc : list xml) (raw : domain V) (t : target) : res target :=
    cells <- descend doc cells_path no_elem ;;
    text <- get_text cells ;;
    solution <- mapM read (tokens_of text) ;;
    '(dom, _) <- read_domain doc raw ;;
    if nz dom =? 0 then
      match t with
      | Target2 d c =>
          '(c, _) <- foldM (fun '(c, solidx) '(i, j) =>
                       v <- of_opt (zget solution solidx) ;;
                       c <- of_opt (zset c (ix2 d i j) v) ;;
                       Ok (c, solidx + 1))
                    (flat_map (fun j => map (fun i => (i, j)) (zrange 0 (nx dom))) (zrange 0 (ny dom))) (c, 0) ;;
          Ok (Target2 d c)
      | Target3 _ _ => Throw
      end
    else
      match t with
      | Target2 _ _ => Throw
      | Target3 d c =>
          '(c, _) <- foldM (fun '(c, solidx) '(i, j, k) =>
                       v <- of_opt (zget solution solidx) ;;
                       c <- of_opt (zset c (ix3 d i j k) v) ;;
                       Ok (c, solidx + 1))
                    (file_order3 (nx dom) (ny dom) (nz dom)) (c, 0) ;;
          Ok (Target3 d c)
      end.

  (** The fields of TimeIntegratorOptions set by setInitialTimeStep. *)
  Record restart : Type := { rs_t0 : V; rs_step : Z; rs_dt : V }.

  (** setInitialTimeStep (reader 176-213) *)
  Definition set_initial_time_step (doc : list xml) (o : restart) : res restart :=
    grid <- descend doc field_path no_elem ;;
    match first_child "FieldData" (elem_kids grid) with
    | None => Ok o
    | Some fd =>
        foldM (fun o e =>
          if negb (String.eqb (elem_name e) "DataArray") then Ok o
          else match find (fun a => String.eqb (fst a) "Name") (elem_attrs e) with
          | None => Ok o
          | Some (_, name) =>
              text <- get_text e ;;
              let toks := tokens_of text in
              if String.eqb name "TimeValue" then
                t <- token toks 0 ;; v <- read t ;;
                Ok {| rs_t0 := v; rs_step := rs_step o; rs_dt := rs_dt o |}
              else if String.eqb name "IterationValue" then
                t <- token toks 0 ;; v <- lexical_int t ;;
                Ok {| rs_t0 := rs_t0 o; rs_step := v; rs_dt := rs_dt o |}
              else if String.eqb name "TimeStepSize" then
                t <- token toks 0 ;; v <- read t ;;
                Ok {| rs_t0 := rs_t0 o; rs_step := rs_step o; rs_dt := v |}
              else Ok o
          end) (elem_kids fd) o
    end.
End VTK.
Arguments file_status V : clear implicits.
Arguments target V : clear implicits.
Arguments restart V : clear implicits.

(** ** File names *)

(** The number of decimal digits of a positive integer. *)
Definition ndigits (n : Z) : Z := Z.of_nat (String.length (dec n)).

(** [int(log10(max_time_steps) + 1)] (writer 41 and 116): the number of digits for a positive
    limit (the rounding of log10 cannot reach the next integer for int arguments); the
    conversion of minus infinity or NaN to int is undefined.  At least 4 in 3D. *)
Definition iter_width2 (max_time_steps : Z) : res Z :=
  if max_time_steps <=? 0 then UB else Ok (ndigits max_time_steps).
Definition iter_width3 (max_time_steps : Z) : res Z :=
  if max_time_steps <=? 0 then UB else Ok (Z.max (ndigits max_time_steps) 4).

(** Trailing zeros of the fraction are not printed. *)
Definition strip_zeros (s : string) : string := trim_right (fun c => Ascii.eqb c "0") s.

(** [operator<<(double)] with the default precision 6, for a non-negative integer value: six
    significant digits, rounded to even, in scientific notation from a million on. *)
Definition show_g6 (n : Z) : string :=
  if n <? 1000000 then dec n
  else
    let e := ndigits n - 1 in
    let q := 10 ^ (e - 5) in
    let (m0, r) := Z.div_eucl n q in
    let m := if (q <? 2 * r) || ((q =? 2 * r) && Z.odd m0) then m0 + 1 else m0 in
    let (m, e) := if m =? 1000000 then (100000, e + 1) else (m, e) in
    match dec m with
    | String c s =>
        let frac := strip_zeros s in
        (String c (match frac with EmptyString => "" | _ => "." ++ frac end) ++ "e+" ++ pad0 2 (dec e))%string
    | EmptyString => ""%string
    end.

(** The file names (writer 45-50 and 120-129).  In 3D the iteration is printed by
    lexical_cast<std::string>(double), with 17 significant digits, which shows every int
    in full; there are no commas to erase. *)
Definition vts_name2 (base : string) (width iter : Z) : string :=
  (base ++ "_step_" ++ pad0 width (show_g6 iter) ++ ".vts")%string.
Definition vts_name3 (base : string) (width iter : Z) : string :=
  (base ++ "_step_" ++ pad0 width (dec iter) ++ ".vts")%string.
