(** The characters of a solution file (/repo/file_io/vtk_solution_writer.cpp) and how the library
    tinyxml2, which is not part of /repo, reads them (vtk_solution_reader.cpp:22, 125, 181).

    The parser follows XMLDocument::Identify, XMLNode::ParseDeep, XMLElement::ParseAttributes and
    XMLAttribute::ParseDeep.  Left out: declarations, comments, CDATA, DTDs, entities, carriage
    returns, the byte order mark and the limit on the depth; a solution file has none of them. *)
From Coq Require Import ZArith List String Ascii Bool.
Import ListNotations.
From Verif Require Import Outcome ZList Num Kernel ModelIndex ModelDisc3D ModelDisc2D ModelText ModelVTK.
Local Open Scope string_scope.
Local Open Scope Z_scope.

Section Text.
  Context {V : Type} `{N : Num V}.
  Variables (show show6 : V -> string).
  Local Open Scope res_scope.

  (** write_solution_to_vtk_2d, the statements on fout (65-105).  [vals] and [pts] are what the loops
      read: values, and pairs of coordinates. *)
  Definition text2 (ni : Z) (st : file_status V) (vals : list V) (pts : list (V * V)) : string :=
    "<VTKFile type=""StructuredGrid"" version=""1.0"" byte_order=""LittleEndian"">" ++ nl ++
    "  <StructuredGrid WholeExtent=""0 " ++ dec ni ++ " 0 " ++ dec ni ++ " 0 0"">" ++ nl ++
    "    <FieldData>" ++ nl ++
    "     <DataArray type=""Float64"" Name=""TimeValue"" NumberOfTuples=""1"">" ++ nl ++
    show6 (fs_time st) ++ nl ++
    "     </DataArray>" ++ nl ++
    "     <DataArray type=""Int32"" Name=""IterationValue"" NumberOfTuples=""1"">" ++ nl ++
    dec (fs_iter st) ++ nl ++
    "     </DataArray>" ++ nl ++
    "     <DataArray type=""Float64"" Name=""TimeStepSize"" NumberOfTuples=""1"">" ++ nl ++
    show6 (fs_dt st) ++ nl ++
    "     </DataArray>" ++ nl ++
    "    </FieldData>" ++ nl ++
    "    <Piece Extent="" 0 " ++ dec ni ++ " 0 " ++ dec ni ++ " 0 0"">" ++ nl ++
    "      <PointData>" ++ nl ++
    "      </PointData>" ++ nl ++
    "      <CellData>" ++ nl ++
    "    <DataArray type=""Float64"" Name=""c"" format=""ascii"">" ++ nl ++
    cat (map (fun v => show v ++ nl) vals) ++
    nl ++ "    </DataArray>" ++ nl ++
    "      </CellData>" ++ nl ++
    "      <Points>" ++ nl ++
    "        <DataArray type=""Float64"" Name=""Points"" NumberOfComponents=""3"" " ++ "format=""ascii"">" ++ nl ++
    cat (map (fun '(x, y) => show x ++ " " ++ show y ++ " 0.0" ++ nl) pts) ++
    "        </DataArray>" ++ nl ++
    "      </Points>" ++ nl ++
    "    </Piece>" ++ nl ++
    "  </StructuredGrid>" ++ nl ++
    "</VTKFile>" ++ nl.

  (** write_solution_to_vtk_3d, the statements on fout (146-190). *)
  Definition text3 (ni nj nk : Z) (st : file_status V) (vals : list V) (pts : list (V * V * V)) : string :=
    "<VTKFile type=""StructuredGrid"" version=""1.0"" byte_order=""LittleEndian"">" ++ nl ++
    "  <StructuredGrid WholeExtent=""0 " ++ dec ni ++ " 0 " ++ dec nj ++ " 0 " ++ dec nk ++ """>" ++ nl ++
    "    <FieldData>" ++ nl ++
    "     <DataArray type=""Float64"" Name=""TimeValue"" NumberOfTuples=""1"">" ++ nl ++
    show6 (fs_time st) ++ nl ++
    "     </DataArray>" ++ nl ++
    "     <DataArray type=""Int32"" Name=""IterationValue"" NumberOfTuples=""1"">" ++ nl ++
    dec (fs_iter st) ++ nl ++
    "     </DataArray>" ++ nl ++
    "     <DataArray type=""Float64"" Name=""TimeStepSize"" NumberOfTuples=""1"">" ++ nl ++
    show6 (fs_dt st) ++ nl ++
    "     </DataArray>" ++ nl ++
    "    </FieldData>" ++ nl ++
    "    <Piece Extent="" 0 " ++ dec ni ++ " 0 " ++ dec nj ++ " 0 " ++ dec nk ++ """>" ++ nl ++
    "      <PointData>" ++ nl ++
    "      </PointData>" ++ nl ++
    "      <CellData>" ++ nl ++
    "    <DataArray type=""Float64"" Name=""c"" format=""ascii"">" ++ nl ++
    cat (map (fun v => show v ++ nl) vals) ++
    nl ++ "    </DataArray>" ++ nl ++
    "      </CellData>" ++ nl ++
    "      <Points>" ++ nl ++
    "        <DataArray type=""Float64"" Name=""Points"" NumberOfComponents=""3"" " ++ "format=""ascii"">" ++ nl ++
    cat (map (fun '(x, y, z) => show x ++ " " ++ show y ++ " " ++ show z ++ nl) pts) ++
    "        </DataArray>" ++ nl ++
    "      </Points>" ++ nl ++
    "    </Piece>" ++ nl ++
    "  </StructuredGrid>" ++ nl ++
    "</VTKFile>" ++ nl.

  (** The loops (84-88, 95-99; 164-170, 177-184) and the text. *)
  Definition print2 (st : file_status V) (d : disc2 V) (c : list V) : res string :=
    let ni := d2_ni d in
    let nh := d2_nhalo d in
    vals <- mapM (fun '(i, j) => of_opt (zget c (ix2 d i j))) (file_order2 ni) ;;
    pts <- mapM (fun '(i, j) =>
             x <- of_opt (zget (d2_xv d) (get1Dindex i j nh (ni + 1 + 2 * nh))) ;;
             y <- of_opt (zget (d2_yv d) (get1Dindex i j nh (ni + 1 + 2 * nh))) ;;
             Ok (x, y)) (file_order2 (ni + 1)) ;;
    Ok (text2 ni st vals pts).
  Definition print3 (st : file_status V) (d : disc3 V) (c : list V) : res string :=
    let '(ni, nj, nk, nh) := (d3_ni d, d3_nj d, d3_nk d, d3_nhalo d) in
    vals <- mapM (fun '(i, j, k) => of_opt (zget c (ix3 d i j k))) (file_order3 ni nj nk) ;;
    pts <- mapM (fun '(i, j, k) =>
             let q := get1DindexFrom3D i j k nh (nj + 1 + 2 * nh) (nk + 1 + 2 * nh) in
             x <- of_opt (zget (d3_xv d) q) ;;
             y <- of_opt (zget (d3_yv d) q) ;;
             z <- of_opt (zget (d3_zv d) q) ;;
             Ok (x, y, z)) (file_order3 (ni + 1) (nj + 1) (nk + 1)) ;;
    Ok (text3 ni nj nk st vals pts).
End Text.

(** ** tinyxml2 *)

(** XMLUtil::IsWhiteSpace, SkipWhiteSpace. *)
Definition is_space (c : ascii) : bool :=
  let n := N_of_ascii c in ((9 <=? n) && (n <=? 13) || (n =? 32))%N.
Fixpoint skip_space (s : string) : string :=
  match s with
  | EmptyString => EmptyString
  | String c r => if is_space c then skip_space r else s
  end.

(** XMLUtil::IsNameStartChar, IsNameChar; StrPair::ParseName. *)
Definition is_name_start (c : ascii) : bool :=
  let n := N_of_ascii c in
  ((128 <=? n) || ((65 <=? n) && (n <=? 90)) || ((97 <=? n) && (n <=? 122)) || (n =? 58) || (n =? 95))%N.
Definition is_name_char (c : ascii) : bool :=
  let n := N_of_ascii c in is_name_start c || ((48 <=? n) && (n <=? 57) || (n =? 46) || (n =? 45))%N.
Fixpoint take_name_chars (s : string) : string * string :=
  match s with
  | EmptyString => (EmptyString, EmptyString)
  | String c r => if is_name_char c then let '(n, t) := take_name_chars r in (String c n, t) else (EmptyString, s)
  end.
Definition take_name (s : string) : option (string * string) :=
  match s with
  | String c r => if is_name_start c then let '(n, t) := take_name_chars r in Some (String c n, t) else None
  | EmptyString => None
  end.

(** StrPair::ParseText: the text before the first [stop], and what follows, from [stop] on. *)
Fixpoint until (stop : ascii) (s : string) : option (string * string) :=
  match s with
  | EmptyString => None
  | String c r =>
      if Ascii.eqb c stop then Some (EmptyString, s)
      else match until stop r with Some (a, b) => Some (String c a, b) | None => None end
  end.

(** XMLAttribute::ParseDeep: name, =, and a value in single or double quotes. *)
Definition parse_attribute (s : string) : option (string * string * string) :=
  match take_name s with
  | None => None
  | Some (n, r) =>
      match skip_space r with
      | String "=" r1 =>
          match skip_space r1 with
          | String q r2 =>
              if (Ascii.eqb q """" || Ascii.eqb q "'")%bool then
                match until q r2 with
                | Some (v, String _ r3) => Some (n, v, r3)
                | _ => None
                end
              else None
          | EmptyString => None
          end
      | _ => None
      end
  end.

(** XMLElement::ParseAttributes: true if the tag ends with />.  An attribute may not be repeated. *)
Fixpoint parse_attributes (fuel : nat) (seen : list (string * string)) (s : string) : option (list (string * string) * bool * string) :=
  match fuel with
  | O => None
  | S f =>
      match skip_space s with
      | EmptyString => None
      | String c r =>
          if is_name_start c then
            match parse_attribute (String c r) with
            | Some (n, v, r1) =>
                if existsb (fun a => String.eqb (fst a) n) seen then None
                else parse_attributes f (seen ++ [(n, v)])%list r1
            | None => None
            end
          else if Ascii.eqb c ">" then Some (seen, false, r)
          else if Ascii.eqb c "/" then match r with String ">" r1 => Some (seen, true, r1) | _ => None end
          else None
      end
  end.

(** A tag after its <: opening, empty or closing (XMLElement::ParseDeep). *)
Inductive tag : Type := Opening (n : string) (a : list (string * string)) | Empty (n : string) (a : list (string * string)) | Closing (n : string).
Definition parse_tag (s : string) : option (tag * string) :=
  let s := skip_space s in
  let '(closing, s) := match s with String "/" r => (true, r) | _ => (false, s) end in
  match take_name s with
  | None => None
  | Some (n, r) =>
      match parse_attributes (S (String.length r)) [] r with
      | None => None
      | Some (a, empty, r1) =>
          Some (if empty then Empty n a else if closing then Closing n else Opening n a, r1)
      end
  end.

(** The children of an element, elements and texts. *)
Inductive node : Type := NText (s : string) | NElem (x : xml).
Definition elements_of (l : list node) : list xml :=
  flat_map (fun n => match n with NElem x => [x] | NText _ => [] end) l.
(** XMLElement::GetText looks at the first child only. *)
Definition text_of (l : list node) : string := match l with NText s :: _ => s | _ => EmptyString end.
Definition make_elem (n : string) (a : list (string * string)) (l : list node) : xml := Elem n a (text_of l) (elements_of l).

(** XMLNode::ParseDeep inside an element: the children up to a closing tag, its name and the rest.
    White space before a tag is dropped; before other text it is kept. *)
Fixpoint parse_children (fuel : nat) (s : string) : option (list node * string * string) :=
  match fuel with
  | O => None
  | S f =>
      match skip_space s with
      | EmptyString => None
      | String c r =>
          if Ascii.eqb c "<" then
            match parse_tag r with
            | None => None
            | Some (Closing n, r1) => Some ([], n, r1)
            | Some (Empty n a, r1) =>
                match parse_children f r1 with
                | Some (l, e, r2) => Some (NElem (make_elem n a []) :: l, e, r2)
                | None => None
                end
            | Some (Opening n a, r1) =>
                match parse_children f r1 with
                | None => None
                | Some (l, e, r2) =>
                    if String.eqb e n then
                      match parse_children f r2 with
                      | Some (l', e', r3) => Some (NElem (make_elem n a l) :: l', e', r3)
                      | None => None
                      end
                    else None
                end
            end
          else
            match until "<" s with
            | None => None
            | Some (t, r1) =>
                match parse_children f r1 with
                | Some (l, e, r2) => Some (NText t :: l, e, r2)
                | None => None
                end
            end
      end
  end.

(** XMLNode::ParseDeep for the document: an element that cannot be parsed to its end is deleted, and
    the elements before it stay. *)
Fixpoint parse_document (fuel : nat) (s : string) : list node :=
  match fuel with
  | O => []
  | S f =>
      match skip_space s with
      | EmptyString => []
      | String c r =>
          if Ascii.eqb c "<" then
            match parse_tag r with
            | None => []
            | Some (Closing _, _) => []
            | Some (Empty n a, r1) => NElem (make_elem n a []) :: parse_document f r1
            | Some (Opening n a, r1) =>
                match parse_children f r1 with
                | Some (l, e, r2) => if String.eqb e n then NElem (make_elem n a l) :: parse_document f r2 else []
                | None => []
                end
            end
          else
            match until "<" s with
            | None => []
            | Some (t, r1) => NText t :: parse_document f r1
            end
      end
  end.
(** XMLDocument::LoadFile, and the elements of the document. *)
Definition load_xml (s : string) : list xml := elements_of (parse_document (S (String.length s)) s).
