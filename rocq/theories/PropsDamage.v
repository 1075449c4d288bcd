(** Solution files that hold other numbers of values than they should: C83.

    [vts_document show6 (extent_text a b c) st cells points] is the document of a solution file for
    a x b x c cells (c zero: 2D) whose cell values are the text [cells] and whose vertex coordinates
    are the text [points]; [listing l s] says that the text s lists the words l.  [read_domain] and
    [set_solution] are the reader's two functions, see C55. *)
From Coq Require Import ZArith QArith List String Ascii.
From Verif Require Import Outcome ZList Num SpecGrid ModelDisc3D ModelDisc2D ExampleNum ModelText ModelVTK SpecVTK VTKFinal DamageFinal.
Import ListNotations.
Local Open Scope string_scope.
Local Open Scope list_scope.
Local Open Scope Z_scope.

(** C83: the reader accepts a file exactly if a third of the number of its coordinates, rounded down, is the number of vertices that the
    extent says.  Of a file with one or two coordinates too many, it reads beyond the end of the list.
    A coordinate that is not a number ends it with an exception. *)
Theorem C83_points :
  forall (V : Type) (N : Num V) (show6 : V -> string) (read : string -> res V) (a b c : Z) (st : file_status V)
    (cells points : string) (pts : list string) (raw : domain V),
  0 <= a -> 0 <= b -> 0 <= c -> vertices a b c <= 2147483647 -> zlen pts / 3 <= 2147483647 ->
  cells <> "" -> listing pts points -> pts <> [] ->
  let out := read_domain read [vts_document show6 (extent_text a b c) st cells points] raw in
  (zlen pts / 3 <> vertices a b c -> out = Fatal) /\
  (zlen pts = 3 * vertices a b c -> readable read pts ->
     exists dom, out = Ok (dom, if c =? 0 then 2 else 3) /\ nx dom = a /\ ny dom = b /\ nz dom = c) /\
  (3 * vertices a b c < zlen pts < 3 * vertices a b c + 3 -> readable read pts -> out = UB) /\
  (zlen pts / 3 = vertices a b c -> first_bad read pts -> out = Throw).
Proof. exact pf_C83_points. Qed.
Print Assumptions C83_points.

(** 2 x 1 x 1 cells have 12 vertices: 36 coordinates are accepted, 38 are undefined behaviour, 39 and 35 are refused. *)
Example C83_points_ex :
  listing (da_words 38) (list_text (da_words 38)) /\ readable ex_read (da_words 38) /\ vertices 2 1 1 = 12 /\
  let run n := read_domain (N:=Num_Q) ex_read (da_doc 2 1 1 "1/1" (list_text (da_words n))) ex_raw in
  (exists dom, run 36%nat = Ok (dom, 3) /\ nx dom = 2) /\ run 38%nat = UB /\ run 39%nat = Fatal /\ run 35%nat = Fatal.
Proof. exact da_points. Qed.

(** C83, 3D: a file with fewer values than cells is not refused: the reader reads beyond the end of the list.  Of a file with more values
    than cells the first ones are used, in the order of the file (x fastest, then y, then z), and the others are ignored.  A
    value that is not a number ends the reader with an exception. *)
Theorem C83_values_3d :
  forall (V : Type) (N : Num V) (show6 : V -> string) (read : string -> res V) (dom : domain V) (d : disc3 V) (st : file_status V)
    (cells points : string) (vs pts : list string) (raw : domain V) (c0 : list V),
  valid_domain3 dom -> make3 dom = Ok d -> zlen c0 = cells3 dom ->
  vertices (nx dom) (ny dom) (nz dom) <= 2147483647 ->
  listing pts points -> zlen pts = 3 * vertices (nx dom) (ny dom) (nz dom) -> readable read pts ->
  listing vs cells -> vs <> [] ->
  let out := set_solution read [vts_document show6 (extent_text (nx dom) (ny dom) (nz dom)) st cells points] raw (Target3 d c0) in
  (forall vals, Forall2 (fun w v => read w = Ok v) vs vals ->
     (zlen vs < nx dom * ny dom * nz dom -> out = UB) /\
     (nx dom * ny dom * nz dom <= zlen vs -> exists c1, out = Ok (Target3 d c1) /\
        (forall u, (forall i j k, inside3 dom i j k -> zget vals (i + nx dom * (j + ny dom * k)) = Some (u i j k)) -> holds_inside3 dom c1 u) /\
        same_halo3 dom c0 c1)) /\
  (first_bad read vs -> out = Throw).
Proof. exact pf_C83_values_3d. Qed.
Print Assumptions C83_values_3d.

(** A file for 2 x 1 x 3 cells with five values, and with seven. *)
Example C83_values_3d_ex :
  valid_domain3 ex_grid3 /\ (exists d, make3 (N:=Num_Q) ex_grid3 = Ok d /\
    let run n := set_solution (N:=Num_Q) ex_read (da_doc 2 1 3 (list_text (da_words n)) (list_text (da_words 72))) ex_raw
      (Target3 d (tabulate3 ex_grid3 (fun _ _ _ => 0%Q))) in
    run 5%nat = UB /\
    (exists c1, run 7%nat = Ok (Target3 d c1) /\ holds_inside3 ex_grid3 c1 (fun _ _ _ => (1 # 2)%Q))) /\
  first_bad ex_read ["1/2"; "x"; "1/2"]%string.
Proof. exact da_values3. Qed.

(** C83, 2D. *)
Theorem C83_values_2d :
  forall (V : Type) (N : Num V) (show6 : V -> string) (read : string -> res V) (dom : domain V) (d : disc2 V) (st : file_status V)
    (cells points : string) (vs pts : list string) (raw : domain V) (c0 : list V),
  valid_domain2 dom -> make2 dom = Ok d -> zlen c0 = cells2 dom ->
  vertices (nx dom) (nx dom) 0 <= 2147483647 ->
  listing pts points -> zlen pts = 3 * vertices (nx dom) (nx dom) 0 -> readable read pts ->
  listing vs cells -> vs <> [] ->
  let out := set_solution read [vts_document show6 (extent_text (nx dom) (nx dom) 0) st cells points] raw (Target2 d c0) in
  (forall vals, Forall2 (fun w v => read w = Ok v) vs vals ->
     (zlen vs < nx dom * nx dom -> out = UB) /\
     (nx dom * nx dom <= zlen vs -> exists c1, out = Ok (Target2 d c1) /\
        (forall u, (forall i j, inside2 dom i j -> zget vals (i + nx dom * j) = Some (u i j)) -> holds_inside2 dom c1 u) /\
        same_halo2 dom c0 c1)) /\
  (first_bad read vs -> out = Throw).
Proof. exact pf_C83_values_2d. Qed.
Print Assumptions C83_values_2d.

(** A file for 2 x 2 cells with three values, and with six. *)
Example C83_values_2d_ex :
  valid_domain2 ex_grid2 /\ (exists d, make2 (N:=Num_Q) ex_grid2 = Ok d /\
    let run n := set_solution (N:=Num_Q) ex_read (da_doc 2 2 0 (list_text (da_words n)) (list_text (da_words 27))) ex_raw
      (Target2 d (tabulate2 ex_grid2 (fun _ _ => 0%Q))) in
    run 3%nat = UB /\
    (exists c1, run 6%nat = Ok (Target2 d c1) /\ holds_inside2 ex_grid2 c1 (fun _ _ => (1 # 2)%Q))).
Proof. exact da_values2. Qed.

(** C83: from a file without the data of the time step, the reader takes no time, step number or step size: the ones of the options stay. *)
Theorem C83_no_status :
  forall (V : Type) (read : string -> res V) (attrs sg_attrs : list (string * string)) (text sg_text : string)
    (kids rest : list xml) (o : restart V),
  (forall e, In e kids -> elem_name e <> "FieldData") ->
  set_initial_time_step read [Elem "VTKFile" attrs text (Elem "StructuredGrid" sg_attrs sg_text kids :: rest)] o = Ok o.
Proof. exact pf_C83_no_status. Qed.
Print Assumptions C83_no_status.

Example C83_no_status_ex :
  let o := {| rs_t0 := (1 # 2)%Q; rs_step := 7; rs_dt := (1 # 8)%Q |} in
  set_initial_time_step ex_read [Elem "VTKFile" [] "" [Elem "StructuredGrid" [] "" [Elem "Piece" [] "" []]]] o = Ok o.
Proof. reflexivity. Qed.

(** C83: a file without any cell value, or without any coordinate (no text at all between the tags), is not refused either: the reader makes
    a string from a null pointer. *)
Theorem C83_empty :
  forall (V : Type) (N : Num V) (show6 : V -> string) (read : string -> res V) (a b c : Z) (st : file_status V)
    (cells points : string) (raw : domain V) (t : target V),
  0 <= a <= 2147483647 -> 0 <= b <= 2147483647 -> 0 <= c <= 2147483647 -> cells = "" \/ points = "" ->
  let doc := [vts_document show6 (extent_text a b c) st cells points] in
  read_domain read doc raw = UB /\ (cells = "" -> set_solution read doc raw t = UB).
Proof. exact pf_C83_empty. Qed.
Print Assumptions C83_empty.

Example C83_empty_ex :
  read_domain (N:=Num_Q) ex_read (da_doc 2 1 1 "" (list_text (da_words 36))) ex_raw = UB /\
  read_domain (N:=Num_Q) ex_read (da_doc 2 1 1 "1/2 1/2" "") ex_raw = UB.
Proof. split; reflexivity. Qed.

(** C83: a file whose extent does not start at zero in every direction is refused; an extent that is not made of integers ends the
    reader with an exception; one with fewer than six numbers is not refused: the reader reads beyond the end of a list. *)
Theorem C83_extent :
  forall (V : Type) (N : Num V) (show6 : V -> string) (read : string -> res V) (ext : string) (ws : list string) (st : file_status V)
    (cells points : string) (raw : domain V),
  listing ws ext -> one_line ext -> ws <> [] ->
  let out := read_domain read [vts_document show6 ext st cells points] raw in
  (zlen ws < 6 -> readable lexical_int ws -> out = UB) /\
  (first_bad lexical_int (firstn 6 ws) -> out = Throw) /\
  (forall a b c d e f x0 x1 y0 y1 z0 z1 rest, ws = a :: b :: c :: d :: e :: f :: rest ->
     lexical_int a = Ok x0 -> lexical_int b = Ok x1 -> lexical_int c = Ok y0 -> lexical_int d = Ok y1 ->
     lexical_int e = Ok z0 -> lexical_int f = Ok z1 -> ~ (x0 = 0 /\ y0 = 0 /\ z0 = 0) -> out = Fatal).
Proof. exact pf_C83_extent. Qed.
Print Assumptions C83_extent.

Example C83_extent_ex :
  listing ["1"; "8"; "0"; "4"]%string "1 8 0 4 " /\ one_line "1 8 0 4 " /\ readable lexical_int ["1"; "8"; "0"; "4"]%string /\
  first_bad lexical_int ["0"; "8.5"; "0"]%string /\
  let run ext := read_domain (N:=Num_Q) ex_read [vts_document ex_show ext ex_status "1/1" "1/1"] ex_raw in
  run "1 8 0 4 "%string = UB /\ run "0 8.5 0"%string = Throw /\ run "1 8 0 4 0 4"%string = Fatal.
Proof. exact da_extent. Qed.

(** C83: a file in which the element of the extent has no attribute at all is not refused: the reader uses an attribute that is not there. *)
Theorem C83_no_extent :
  forall (V : Type) (N : Num V) (read : string -> res V) (attrs sg_attrs : list (string * string)) (text sg_text p_text : string)
    (before kids after rest : list xml) (raw : domain V),
  (forall e, In e before -> elem_name e <> "Piece") ->
  read_domain read [Elem "VTKFile" attrs text
    (Elem "StructuredGrid" sg_attrs sg_text (before ++ Elem "Piece" [] p_text kids :: after)%list :: rest)] raw = UB.
Proof. exact pf_C83_no_extent. Qed.
Print Assumptions C83_no_extent.

Example C83_no_extent_ex :
  read_domain (N:=Num_Q) ex_read [Elem "VTKFile" [] "" [Elem "StructuredGrid" [] "" [Elem "FieldData" [] "" []; Elem "Piece" [] "" []]]] ex_raw = UB.
Proof. reflexivity. Qed.
