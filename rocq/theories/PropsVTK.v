(** Solution files: C55 and C56.

    [write3 show show6 st d c] is the document written for the state c with iteration status st;
    [set_solution read doc raw target] reads its cell values into a state, [read_domain read doc raw]
    the grid and [set_initial_time_step read doc o] the time, step number and step size to restart
    from.  [show] and [show6] print a number with 17 and with 7 digits, [read] converts text to a
    number; [prints show read v] says that v survives printing and reading.  [raw] is the
    uninitialised memory of the domain description. *)
From Coq Require Import ZArith QArith Reals List String Ascii.
From Verif Require Import Outcome ZList Num SpecGrid ModelDisc3D ModelDisc2D ExampleNum ModelText ModelVTK SpecVTK VTKFinal.
Import ListNotations.
Local Open Scope string_scope.
Local Open Scope list_scope.
Local Open Scope Z_scope.

(** C55, 3D: what is written for a state and read back into any state on a grid with the same numbers
    of cells (halo width, boundary types and position may differ) puts every interior value back in
    its own cell and leaves the halo cells alone, whatever the state held before.  A 2D state
    is refused. *)
Theorem C55_round_trip_3d :
  forall (V : Type) (N : Num V) (show show6 : V -> string) (read : string -> res V)
    (dom dom' : domain V) (d d' : disc3 V) (st : file_status V) (c c0 : list V) (u : Z -> Z -> Z -> V) (raw : domain V),
  valid_domain3 dom -> make3 dom = Ok d -> holds_inside3 dom c u ->
  nx dom <= 2147483647 -> ny dom <= 2147483647 -> nz dom <= 2147483647 ->
  vertices_print3 show read dom (d3_dx d) ->
  (forall i j k, inside3 dom i j k -> prints show read (u i j k)) ->
  valid_domain3 dom' -> make3 dom' = Ok d' -> nx dom' = nx dom -> ny dom' = ny dom -> nz dom' = nz dom ->
  zlen c0 = cells3 dom' ->
  exists doc, write3 show show6 st d c = Ok doc /\
    (exists c1, set_solution read doc raw (Target3 d' c0) = Ok (Target3 d' c1) /\
      holds_inside3 dom' c1 u /\ same_halo3 dom' c0 c1) /\
    (forall d2 c2, set_solution read doc raw (Target2 d2 c2) = Throw).
Proof. exact pf_C55_round_trip_3d. Qed.
Print Assumptions C55_round_trip_3d.

Example C55_3d_ex :
  valid_domain3 ex_grid3 /\ (exists d : disc3 Q, make3 (N:=Num_Q) ex_grid3 = Ok d /\
    vertices_print3 (H:=Num_Q) ex_show ex_read ex_grid3 (d3_dx d) /\
    holds_inside3 ex_grid3 (tabulate3 ex_grid3 ex_field3) ex_field3 /\
    (forall i j k, inside3 ex_grid3 i j k -> prints ex_show ex_read (ex_field3 i j k)) /\
    ex_show (ex_field3 1 0 2) = "15/3"%string).
Proof. exact ex_hypotheses3. Qed.

(** C55, 2D. *)
Theorem C55_round_trip_2d :
  forall (V : Type) (N : Num V) (show show6 : V -> string) (read : string -> res V) (zero : V)
    (dom dom' : domain V) (d d' : disc2 V) (st : file_status V) (c c0 : list V) (u : Z -> Z -> V) (raw : domain V),
  read "0.0"%string = Ok zero ->
  valid_domain2 dom -> make2 dom = Ok d -> holds_inside2 dom c u -> nx dom <= 2147483647 ->
  vertices_print2 show read dom (d2_dx d) ->
  (forall i j, inside2 dom i j -> prints show read (u i j)) ->
  valid_domain2 dom' -> make2 dom' = Ok d' -> nx dom' = nx dom -> zlen c0 = cells2 dom' ->
  exists doc, write2 show show6 st d c = Ok doc /\
    (exists c1, set_solution read doc raw (Target2 d' c0) = Ok (Target2 d' c1) /\
      holds_inside2 dom' c1 u /\ same_halo2 dom' c0 c1) /\
    (forall d3 c3, set_solution read doc raw (Target3 d3 c3) = Throw).
Proof. exact pf_C55_round_trip_2d. Qed.
Print Assumptions C55_round_trip_2d.

Example C55_2d_ex :
  ex_read "0.0"%string = Ok 0%Q /\
  valid_domain2 ex_grid2 /\ (exists d : disc2 Q, make2 (N:=Num_Q) ex_grid2 = Ok d /\
    vertices_print2 (H:=Num_Q) ex_show ex_read ex_grid2 (d2_dx d) /\
    holds_inside2 ex_grid2 (tabulate2 ex_grid2 ex_field2) ex_field2 /\
    (forall i j, inside2 ex_grid2 i j -> prints ex_show ex_read (ex_field2 i j)) /\
    ex_show (ex_field2 0 1) = "-5/3"%string).
Proof. exact ex_hypotheses2. Qed.

(** C55: in exact arithmetic the grid read from a file is the grid it was written on: the numbers of
    cells, the begin corner and the end of the x axis; the other fields are not read. *)
Theorem C55_domain_3d :
  forall (show show6 : R -> string) (read : string -> res R)
    (dom raw : domain R) (d : disc3 R) (st : file_status R) (c : list R) (u : Z -> Z -> Z -> R),
  valid_domain3 dom -> make3 dom = Ok d -> holds_inside3 dom c u -> (xbeg dom < xend dom)%R ->
  nx dom <= 2147483647 -> ny dom <= 2147483647 -> nz dom <= 2147483647 ->
  vertices_print3 show read dom (d3_dx d) ->
  exists doc, write3 show show6 st d c = Ok doc /\
    read_domain read doc raw =
      Ok ({| nx := nx dom; ny := ny dom; nz := nz dom; xbeg := xbeg dom; xend := xend dom;
             ybeg := ybeg dom; yend := yend raw; zbeg := zbeg dom; zend := zend raw;
             xbc := xbc raw; ybc := ybc raw; zbc := zbc raw; nhalo := nhalo raw |}, 3).
Proof. exact pf_C55_domain_3d. Qed.
Print Assumptions C55_domain_3d.

Example C55_domain_3d_ex :
  let dom := ex_dom 0%R 2%R 2 1 3 1 Periodic Neumann Periodic in
  valid_domain3 dom /\ (xbeg dom < xend dom)%R /\
  exists (show : R -> string) (read : string -> res R) (d : disc3 R), make3 dom = Ok d /\
    vertices_print3 show read dom (d3_dx d).
Proof. exact ex_domain3. Qed.

(** C55, 2D: ny is read as nx, nz and zbeg as 0. *)
Theorem C55_domain_2d :
  forall (show show6 : R -> string) (read : string -> res R)
    (dom raw : domain R) (d : disc2 R) (st : file_status R) (c : list R) (u : Z -> Z -> R),
  read "0.0"%string = Ok 0%R ->
  valid_domain2 dom -> make2 dom = Ok d -> holds_inside2 dom c u -> (xbeg dom < xend dom)%R ->
  nx dom <= 2147483647 -> vertices_print2 show read dom (d2_dx d) ->
  exists doc, write2 show show6 st d c = Ok doc /\
    read_domain read doc raw =
      Ok ({| nx := nx dom; ny := nx dom; nz := 0; xbeg := xbeg dom; xend := xend dom;
             ybeg := ybeg dom; yend := yend raw; zbeg := 0%R; zend := zend raw;
             xbc := xbc raw; ybc := ybc raw; zbc := zbc raw; nhalo := nhalo raw |}, 2).
Proof. exact pf_C55_domain_2d. Qed.
Print Assumptions C55_domain_2d.

Example C55_domain_2d_ex :
  let dom := ex_dom 0%R 2%R 2 0 0 1 Periodic Periodic Periodic in
  valid_domain2 dom /\ (xbeg dom < xend dom)%R /\
  exists (show : R -> string) (read : string -> res R) (d : disc2 R), make2 dom = Ok d /\
    read "0.0"%string = Ok 0%R /\ vertices_print2 show read dom (d2_dx d).
Proof. exact ex_domain2. Qed.

(** C55: a restart takes up the step number that was written, and the time and the step size as their
    printed text denotes them, whatever the options said before. *)
Theorem C55_restart :
  forall (V : Type) (N : Num V) (show show6 : V -> string) (read : string -> res V)
    (st : file_status V) (t dt : V) (o : restart V) (doc : list xml),
  0 <= fs_iter st <= 2147483647 ->
  word (show6 (fs_time st)) -> read (show6 (fs_time st)) = Ok t ->
  word (show6 (fs_dt st)) -> read (show6 (fs_dt st)) = Ok dt ->
  (exists d c, write3 show show6 st d c = Ok doc) \/ (exists d c, write2 show show6 st d c = Ok doc) ->
  set_initial_time_step read doc o = Ok {| rs_t0 := t; rs_step := fs_iter st; rs_dt := dt |}.
Proof. exact pf_C55_restart. Qed.
Print Assumptions C55_restart.

Example C55_restart_ex :
  word (ex_show (fs_time ex_status)) /\ ex_read (ex_show (fs_time ex_status)) = Ok (5 # 2)%Q /\
  word (ex_show (fs_dt ex_status)) /\ ex_read (ex_show (fs_dt ex_status)) = Ok (1 # 64)%Q /\
  exists (d : disc3 Q) (doc : list xml), make3 (N:=Num_Q) ex_grid3 = Ok d /\
    write3 ex_show ex_show ex_status d (tabulate3 ex_grid3 ex_field3) = Ok doc.
Proof. exact ex_restart. Qed.

(** C56: the padded width is the number of digits of the step limit, at least 4 in 3D; it is undefined
    for a limit of zero or less. *)
Theorem C56_width :
  forall (max_time_steps w : Z),
  (iter_width2 max_time_steps = Ok w <-> 1 <= w /\ 10 ^ (w - 1) <= max_time_steps < 10 ^ w) /\
  (iter_width3 max_time_steps = Ok w <->
     1 <= max_time_steps /\ 4 <= w /\ max_time_steps < 10 ^ w /\ (w = 4 \/ 10 ^ (w - 1) <= max_time_steps)) /\
  (max_time_steps <= 0 -> iter_width2 max_time_steps = UB /\ iter_width3 max_time_steps = UB).
Proof. exact pf_C56_width. Qed.
Print Assumptions C56_width.

Example C56_width_ex : iter_width2 1000 = Ok 4 /\ iter_width2 999 = Ok 3 /\ iter_width3 7 = Ok 4 /\ iter_width3 123456 = Ok 6.
Proof. repeat split; reflexivity. Qed.

(** C56, 3D: distinct iterations have distinct file names, at any width. *)
Theorem C56_names_3d :
  forall (base : string) (w i j : Z), 0 <= i -> 0 <= j ->
  vts_name3 base w i = vts_name3 base w j -> i = j.
Proof. exact pf_C56_names_3d. Qed.
Print Assumptions C56_names_3d.

Example C56_3d_ex : vts_name3 "out" 4 25 = "out_step_0025.vts"%string /\ vts_name3 "out" 4 1000001 = "out_step_1000001.vts"%string.
Proof. split; reflexivity. Qed.

(** C56, 3D: up to the step limit the dictionary order of the names is the order of the iterations. *)
Theorem C56_order_3d :
  forall (base : string) (max_time_steps w i j : Z), iter_width3 max_time_steps = Ok w ->
  0 <= i < j -> j <= max_time_steps -> before (vts_name3 base w i) (vts_name3 base w j).
Proof. exact pf_C56_order_3d. Qed.
Print Assumptions C56_order_3d.

Example C56_order_3d_ex : iter_width3 50000 = Ok 5 /\ vts_name3 "c" 5 9999 = "c_step_09999.vts"%string /\ vts_name3 "c" 5 10000 = "c_step_10000.vts"%string.
Proof. repeat split; reflexivity. Qed.

(** C56, 2D: an iteration below a million shares its file name with no other iteration. *)
Theorem C56_names_2d :
  forall (base : string) (w i j : Z), 0 <= i < 1000000 -> 0 <= j ->
  vts_name2 base w i = vts_name2 base w j -> i = j.
Proof. exact pf_C56_names_2d. Qed.
Print Assumptions C56_names_2d.

Example C56_2d_ex : vts_name2 "out" 4 999999 = "out_step_999999.vts"%string /\ vts_name2 "out" 8 1234567 = "out_step_1.23457e+06.vts"%string.
Proof. split; reflexivity. Qed.

(** C56, 2D: the order follows the iteration below a million. *)
Theorem C56_order_2d :
  forall (base : string) (max_time_steps w i j : Z), iter_width2 max_time_steps = Ok w ->
  0 <= i < j -> j <= max_time_steps -> j < 1000000 -> before (vts_name2 base w i) (vts_name2 base w j).
Proof. exact pf_C56_order_2d. Qed.
Print Assumptions C56_order_2d.

Example C56_order_2d_ex : iter_width2 200 = Ok 3 /\ vts_name2 "c" 3 99 = "c_step_099.vts"%string.
Proof. split; reflexivity. Qed.

(** C56, 2D, refuted from a million on: from 1000000 to 9999999 the first five iterations of every ten
    are written to the same file, so four of them are lost. *)
Theorem C56_names_2d_refuted :
  forall (base : string) (w a r : Z), 100000 <= a < 1000000 -> 0 <= r < 5 ->
  vts_name2 base w (10 * a + r) = vts_name2 base w (10 * a).
Proof. exact pf_C56_names_2d_refuted. Qed.
Print Assumptions C56_names_2d_refuted.

Example C56_collision_ex : vts_name2 "out" 7 1000004 = "out_step_001e+06.vts"%string /\ vts_name2 "out" 7 1000000 = "out_step_001e+06.vts"%string.
Proof. split; reflexivity. Qed.

(** C56, 2D: from a million on, the number in the name is the iteration rounded to six significant digits m (to the nearest, ties to even),
    written with one digit before the point, without trailing zeros, and with the power of ten. *)
Theorem C56_rounded_2d :
  forall (base : string) (w n : Z), 1000000 <= n ->
  exists (m k : Z) (c : ascii) (frac zeros : string),
    vts_name2 base w n = (base ++ "_step_" ++
      pad0 w (String c (match frac with EmptyString => "" | _ => "." ++ frac end) ++ "e+" ++ pad0 2 (dec (k + 5))) ++ ".vts")%string /\
    100000 <= m < 1000000 /\ 1 <= k /\ 2 * Z.abs (n - m * 10 ^ k) <= 10 ^ k /\
    (2 * Z.abs (n - m * 10 ^ k) = 10 ^ k -> Z.even m = true) /\
    digits_value 0 (String c (frac ++ zeros)) = Some m /\
    (forall i a, String.get i zeros = Some a -> a = "0"%char) /\ (forall f, frac <> (f ++ "0")%string).
Proof. exact pf_C56_rounded_2d. Qed.
Print Assumptions C56_rounded_2d.

Example C56_rounded_2d_ex : vts_name2 "out" 7 1234565 = "out_step_1.23456e+06.vts"%string /\
  vts_name2 "out" 7 9999996 = "out_step_001e+07.vts"%string.
Proof. split; reflexivity. Qed.

(** C56: the file written at the end of a run never takes the name of a saved step. *)
Theorem C56_final_distinct :
  forall (base : string) (w w' i j : Z),
  vts_name3 (base ++ "_final") w i <> vts_name3 base w' j /\ vts_name2 (base ++ "_final") w i <> vts_name2 base w' j.
Proof. exact pf_C56_final_distinct. Qed.
Print Assumptions C56_final_distinct.

Example C56_final_ex : vts_name3 ("out" ++ "_final") 4 10 = "out_final_step_0010.vts"%string.
Proof. reflexivity. Qed.
