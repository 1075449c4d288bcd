(** Proofs of the properties of solution files with other numbers of values. *)
From Coq Require Import ZArith QArith List String Ascii Bool Lia.
From Verif Require Import Outcome ZList ZListProofs Num Kernel ModelDisc3D ModelDisc2D SpecGrid Disc3DProofs Disc2DProofs
  Make3Proofs Make2Proofs ExampleNum ModelText TextProofs ModelVTK SpecVTK VTKProofs VTK2Proofs VTK4Proofs VTKFinal.
Import ListNotations.
Local Open Scope string_scope.
Local Open Scope list_scope.
Local Open Scope Z_scope.

(** Lists for the examples: n times the word w. *)
Fixpoint list_text (l : list string) : string :=
  match l with [] => "" | w :: l => (w ++ " " ++ list_text l)%string end.
Lemma list_text_listing l : (forall w, In w l -> word w) -> listing l (list_text l).
Proof.
  induction l as [|w l IH]; intros H; cbn [list_text].
  - apply listing_end. intros n c E. destruct n; discriminate.
  - change (w ++ " " ++ list_text l)%string with ("" ++ w ++ " " ++ list_text l)%string. apply listing_word.
    + intros n c E. destruct n; discriminate.
    + apply H. left; auto.
    + intros [|[|n]] c E; try discriminate E. injection E as <-. left; reflexivity.
    + discriminate.
    + apply IH. intros v I. apply H. right; auto.
Qed.
Definition da_words (n : nat) : list string := repeat "1/2" n.
Lemma da_listing n : listing (da_words n) (list_text (da_words n)).
Proof. apply list_text_listing. intros w I. apply repeat_spec in I. subst w. apply wordb_word; [discriminate|reflexivity]. Qed.
Lemma da_readable n : readable ex_read (da_words n).
Proof. intros w I. apply repeat_spec in I. subst w. exists (1 # 2)%Q. reflexivity. Qed.
Lemma da_forall2 n : Forall2 (fun w v => ex_read w = Ok v) (da_words n) (repeat (1 # 2)%Q n).
Proof. induction n as [|n IH]; cbn; constructor; [reflexivity|exact IH]. Qed.
Definition da_doc (a b c : Z) (cells points : string) : list xml := [vts_document ex_show (extent_text a b c) ex_status cells points].

Lemma pf_C83_points :
  forall (V : Type) (N : Num V) (show6 : V -> string) (read : string -> res V) (a b c : Z) (st : file_status V)
    (cells points : string) (pts : list string) (raw : domain V),
  0 <= a -> 0 <= b -> 0 <= c -> vertices a b c <= 2147483647 -> zlen pts / 3 <= 2147483647 ->
  cells <> "" -> listing pts points -> pts <> [] ->
  let out := read_domain read [vts_document show6 (extent_text a b c) st cells points] raw in
  (zlen pts / 3 <> vertices a b c -> out = Fatal) /\
  (zlen pts = 3 * vertices a b c -> readable read pts ->
     exists dom, out = Ok (dom, if c =? 0 then 2 else 3) /\ nx dom = a /\ ny dom = b /\ nz dom = c) /\
  (3 * vertices a b c < zlen pts < 3 * vertices a b c + 3 -> readable read pts -> out = UB) /\
  (zlen pts / 3 = vertices a b c -> first_bad read pts -> out = Throw).
Proof.
  intros V N show6 read a b c st cells points pts raw HA HB HC VB _ NC LP NT.
  destruct (vertices_bounds a b c HA HB HC VB) as (V1 & B1 & B2 & B3).
  assert (I1 : 0 <= a <= 2147483647) by lia. assert (I2 : 0 <= b <= 2147483647) by lia. assert (I3 : 0 <= c <= 2147483647) by lia.
  pose proof (read_points show6 read a b c st cells points pts raw I1 I2 I3 NC LP NT) as E.
  pose proof (fun L R => read_points_ok show6 read a b c st cells points pts raw I1 I2 I3 NC LP L R) as K.
  set (out := read_domain _ _ _) in *. clearbody out. cbv zeta.
  split; [|split; [|split]].
  - intros NE. rewrite E. destruct (Z.eqb_spec (zlen pts / 3) (vertices a b c)); [contradiction|reflexivity].
  - exact K.
  - intros L R. rewrite E. clear E K out.
    assert (D : zlen pts / 3 = vertices a b c) by (symmetry; apply Z.div_unique with (zlen pts - 3 * vertices a b c); lia).
    assert (M : zlen pts mod 3 <> 0) by (rewrite Z.mod_eq by lia; lia).
    rewrite D, Z.eqb_refl. destruct (mapM_readable read pts R) as (vals & -> & LV). cbn [rbind].
    pose proof (triples_cases vals) as T. rewrite LV in T. destruct (Z.eqb_spec (zlen pts mod 3) 0); [contradiction|]. rewrite T. reflexivity.
  - intros L B. rewrite E, L, Z.eqb_refl, mapM_bad by exact B. reflexivity.
Qed.

Lemma da_points :
  listing (da_words 38) (list_text (da_words 38)) /\ readable ex_read (da_words 38) /\ vertices 2 1 1 = 12 /\
  let run n := read_domain (N:=Num_Q) ex_read (da_doc 2 1 1 "1/1" (list_text (da_words n))) ex_raw in
  (exists dom, run 36%nat = Ok (dom, 3) /\ nx dom = 2) /\ run 38%nat = UB /\ run 39%nat = Fatal /\ run 35%nat = Fatal.
Proof.
  split; [apply da_listing|]. split; [apply da_readable|]. split; [reflexivity|]. intros run.
  pose proof (fun n A B => pf_C83_points Q Num_Q ex_show ex_read 2 1 1 ex_status "1/1" (list_text (da_words n)) (da_words n) ex_raw
    ltac:(discriminate) ltac:(discriminate) ltac:(discriminate) ltac:(vm_compute; discriminate) A ltac:(discriminate) (da_listing n) B) as G.
  cbv zeta in G.
  split; [|split; [|split]].
  - destruct (G 36%nat) as (_ & H & _); [vm_compute; discriminate|discriminate|]. destruct H as (dom & E & X & _); [reflexivity|apply da_readable|]. exists dom. split; [exact E|exact X].
  - destruct (G 38%nat) as (_ & _ & H & _); [vm_compute; discriminate|discriminate|]. apply H; [split; reflexivity|apply da_readable].
  - destruct (G 39%nat) as (H & _); [vm_compute; discriminate|discriminate|]. apply H. discriminate.
  - destruct (G 35%nat) as (H & _); [vm_compute; discriminate|discriminate|]. apply H. discriminate.
Qed.

Lemma pf_C83_values_3d :
  forall (V : Type) (N : Num V) (show6 : V -> string) (read : string -> res V) (dom : domain V) (d : disc3 V) (st : file_status V)
    (cells points : string) (vs pts : list string) (raw : domain V) (c0 : list V),
  valid_domain3 dom -> make3 dom = Ok d -> zlen c0 = cells3 dom ->
  vertices (nx dom) (ny dom) (nz dom) <= 2147483647 ->
  listing pts points -> zlen pts = 3 * vertices (nx dom) (ny dom) (nz dom) -> readable read pts ->
  listing vs cells -> vs <> [] ->
  let out := set_solution read [vts_document show6 (extent_text (nx dom) (ny dom) (nz dom)) st cells points] raw (Target3 d c0) in
  (forall vals, Forall2 (fun w v => read w = Ok v) vs vals ->
     (zlen vs < nx dom * ny dom * nz dom -> out = UB) /\
     (nx dom * ny dom * nz dom <= zlen vs -> exists c1, out = Ok (Target3 d c1) /\
        (forall u, (forall i j k, inside3 dom i j k -> zget vals (i + nx dom * (j + ny dom * k)) = Some (u i j k)) -> holds_inside3 dom c1 u) /\
        same_halo3 dom c0 c1)) /\
  (first_bad read vs -> out = Throw).
Proof.
  intros V N show6 read dom d st cells points vs pts raw c0 HV E LC VB LP LN RP LV NE out. split.
  - intros vals RV. exact (values3 show6 read dom d st cells points vs vals pts raw c0 HV E LC VB LP LN RP LV NE RV).
  - intros B. apply (solution_bad show6 read _ _ _ st cells points vs raw _ LV B).
Qed.

Lemma da_zget {A} (v : A) n m : 0 <= m < Z.of_nat n -> zget (repeat v n) m = Some v.
Proof.
  intros H. unfold zget. destruct (Z.ltb_spec m 0); [lia|]. apply nth_error_repeat. lia.
Qed.
Lemma da_values3 :
  valid_domain3 ex_grid3 /\ (exists d, make3 (N:=Num_Q) ex_grid3 = Ok d /\
    let run n := set_solution (N:=Num_Q) ex_read (da_doc 2 1 3 (list_text (da_words n)) (list_text (da_words 72))) ex_raw
      (Target3 d (tabulate3 ex_grid3 (fun _ _ _ => 0%Q))) in
    run 5%nat = UB /\
    (exists c1, run 7%nat = Ok (Target3 d c1) /\ holds_inside3 ex_grid3 c1 (fun _ _ _ => (1 # 2)%Q))) /\
  first_bad ex_read ["1/2"; "x"; "1/2"]%string.
Proof.
  assert (HV : valid_domain3 ex_grid3) by (vm_compute; repeat split; discriminate).
  split; auto. split; [|exists ["1/2"]%string, "x"%string, ["1/2"]%string; split; [reflexivity|split; [|reflexivity]];
    intros w [<-|[]]; exists (1 # 2)%Q; reflexivity].
  destruct (make3_ok (N:=Num_Q) ex_grid3 HV) as (d & E & W & D & _). exists d. split; auto. intros run.
  pose proof (fun n A => pf_C83_values_3d Q Num_Q ex_show ex_read ex_grid3 d ex_status (list_text (da_words n)) (list_text (da_words 72)) (da_words n) (da_words 72) ex_raw
    (tabulate3 ex_grid3 (fun _ _ _ => 0%Q)) HV E eq_refl ltac:(vm_compute; discriminate) (da_listing 72) eq_refl (da_readable 72) (da_listing n) A) as G.
  cbv zeta in G. split.
  - destruct (G 5%nat) as (H & _); [discriminate|]. apply (H _ (da_forall2 5)). reflexivity.
  - destruct (G 7%nat) as (H & _); [discriminate|]. destruct (H _ (da_forall2 7)) as (_ & H2). destruct H2 as (c1 & E1 & U & _); [discriminate|].
    exists c1. split; [exact E1|]. apply U. intros i j k (A & B & C). cbn [nx ny nz ex_grid3 ex_dom] in *. apply da_zget. lia.
Qed.

Lemma pf_C83_values_2d :
  forall (V : Type) (N : Num V) (show6 : V -> string) (read : string -> res V) (dom : domain V) (d : disc2 V) (st : file_status V)
    (cells points : string) (vs pts : list string) (raw : domain V) (c0 : list V),
  valid_domain2 dom -> make2 dom = Ok d -> zlen c0 = cells2 dom ->
  vertices (nx dom) (nx dom) 0 <= 2147483647 ->
  listing pts points -> zlen pts = 3 * vertices (nx dom) (nx dom) 0 -> readable read pts ->
  listing vs cells -> vs <> [] ->
  let out := set_solution read [vts_document show6 (extent_text (nx dom) (nx dom) 0) st cells points] raw (Target2 d c0) in
  (forall vals, Forall2 (fun w v => read w = Ok v) vs vals ->
     (zlen vs < nx dom * nx dom -> out = UB) /\
     (nx dom * nx dom <= zlen vs -> exists c1, out = Ok (Target2 d c1) /\
        (forall u, (forall i j, inside2 dom i j -> zget vals (i + nx dom * j) = Some (u i j)) -> holds_inside2 dom c1 u) /\
        same_halo2 dom c0 c1)) /\
  (first_bad read vs -> out = Throw).
Proof.
  intros V N show6 read dom d st cells points vs pts raw c0 HV E LC VB LP LN RP LV NE out. split.
  - intros vals RV. exact (values2 show6 read dom d st cells points vs vals pts raw c0 HV E LC VB LP LN RP LV NE RV).
  - intros B. apply (solution_bad show6 read _ _ _ st cells points vs raw _ LV B).
Qed.

Lemma da_values2 :
  valid_domain2 ex_grid2 /\ (exists d, make2 (N:=Num_Q) ex_grid2 = Ok d /\
    let run n := set_solution (N:=Num_Q) ex_read (da_doc 2 2 0 (list_text (da_words n)) (list_text (da_words 27))) ex_raw
      (Target2 d (tabulate2 ex_grid2 (fun _ _ => 0%Q))) in
    run 3%nat = UB /\
    (exists c1, run 6%nat = Ok (Target2 d c1) /\ holds_inside2 ex_grid2 c1 (fun _ _ => (1 # 2)%Q))).
Proof.
  assert (HV : valid_domain2 ex_grid2) by (vm_compute; repeat split; discriminate).
  split; auto.
  destruct (make2_ok (N:=Num_Q) ex_grid2 HV) as (d & E & W & D & _). exists d. split; auto. intros run.
  pose proof (fun n A => pf_C83_values_2d Q Num_Q ex_show ex_read ex_grid2 d ex_status (list_text (da_words n)) (list_text (da_words 27)) (da_words n) (da_words 27) ex_raw
    (tabulate2 ex_grid2 (fun _ _ => 0%Q)) HV E eq_refl ltac:(vm_compute; discriminate) (da_listing 27) eq_refl (da_readable 27) (da_listing n) A) as G.
  cbv zeta in G. split.
  - destruct (G 3%nat) as (H & _); [discriminate|]. apply (H _ (da_forall2 3)). reflexivity.
  - destruct (G 6%nat) as (H & _); [discriminate|]. destruct (H _ (da_forall2 6)) as (_ & H2). destruct H2 as (c1 & E1 & U & _); [discriminate|].
    exists c1. split; [exact E1|]. apply U. intros i j (A & B). cbn [nx ny nz ex_grid2 ex_dom] in *. apply da_zget. lia.
Qed.

Lemma pf_C83_no_status :
  forall (V : Type) (read : string -> res V) (attrs sg_attrs : list (string * string)) (text sg_text : string)
    (kids rest : list xml) (o : restart V),
  (forall e, In e kids -> elem_name e <> "FieldData") ->
  set_initial_time_step read [Elem "VTKFile" attrs text (Elem "StructuredGrid" sg_attrs sg_text kids :: rest)] o = Ok o.
Proof. intros V read attrs sg_attrs text sg_text kids rest o H. apply no_field_data. exact H. Qed.

Lemma pf_C83_empty :
  forall (V : Type) (N : Num V) (show6 : V -> string) (read : string -> res V) (a b c : Z) (st : file_status V)
    (cells points : string) (raw : domain V) (t : target V),
  0 <= a <= 2147483647 -> 0 <= b <= 2147483647 -> 0 <= c <= 2147483647 -> cells = "" \/ points = "" ->
  let doc := [vts_document show6 (extent_text a b c) st cells points] in
  read_domain read doc raw = UB /\ (cells = "" -> set_solution read doc raw t = UB).
Proof.
  intros V N show6 read a b c st cells points raw t HA HB HC E doc. split.
  - apply read_empty; assumption.
  - intros ->. reflexivity.
Qed.

Lemma pf_C83_extent :
  forall (V : Type) (N : Num V) (show6 : V -> string) (read : string -> res V) (ext : string) (ws : list string) (st : file_status V)
    (cells points : string) (raw : domain V),
  listing ws ext -> one_line ext -> ws <> [] ->
  let out := read_domain read [vts_document show6 ext st cells points] raw in
  (zlen ws < 6 -> readable lexical_int ws -> out = UB) /\
  (first_bad lexical_int (firstn 6 ws) -> out = Throw) /\
  (forall a b c d e f x0 x1 y0 y1 z0 z1 rest, ws = a :: b :: c :: d :: e :: f :: rest ->
     lexical_int a = Ok x0 -> lexical_int b = Ok x1 -> lexical_int c = Ok y0 -> lexical_int d = Ok y1 ->
     lexical_int e = Ok z0 -> lexical_int f = Ok z1 -> ~ (x0 = 0 /\ y0 = 0 /\ z0 = 0) -> out = Fatal).
Proof. intros V N show6 read ext ws st cells points raw. apply read_extent. Qed.

Lemma da_extent :
  listing ["1"; "8"; "0"; "4"]%string "1 8 0 4 " /\ one_line "1 8 0 4 " /\ readable lexical_int ["1"; "8"; "0"; "4"]%string /\
  first_bad lexical_int ["0"; "8.5"; "0"]%string /\
  let run ext := read_domain (N:=Num_Q) ex_read [vts_document ex_show ext ex_status "1/1" "1/1"] ex_raw in
  run "1 8 0 4 "%string = UB /\ run "0 8.5 0"%string = Throw /\ run "1 8 0 4 0 4"%string = Fatal.
Proof.
  split; [|split; [|split; [|split; [|split; [|split]]]]].
  - apply (list_text_listing ["1"; "8"; "0"; "4"]%string). intros w [<-|[<-|[<-|[<-|[]]]]]; (apply wordb_word; [discriminate|reflexivity]).
  - intros n. do 9 (destruct n as [|n]; [discriminate|]). discriminate.
  - intros w [<-|[<-|[<-|[<-|[]]]]]; eexists; reflexivity.
  - exists ["0"]%string, "8.5"%string, ["0"]%string. split; [reflexivity|]. split; [|reflexivity]. intros w [<-|[]]. exists 0. reflexivity.
  - reflexivity.
  - reflexivity.
  - reflexivity.
Qed.

Lemma bare_piece (V : Type) (N : Num V) (read : string -> res V) (attrs sg_attrs : list (string * string)) (text sg_text p_text : string)
    (before kids after rest : list xml) (raw : domain V) :
  (forall e, In e before -> elem_name e <> "Piece") ->
  read_domain read [Elem "VTKFile" attrs text
    (Elem "StructuredGrid" sg_attrs sg_text (before ++ Elem "Piece" [] p_text kids :: after)%list :: rest)] raw = UB.
Proof.
  intros H. unfold read_domain.
  assert (F : first_child "Piece" (before ++ Elem "Piece" [] p_text kids :: after)%list = Some (Elem "Piece" [] p_text kids)).
  { unfold first_child. induction before as [|e l IH]; [reflexivity|]. cbn [app find].
    destruct (String.eqb _ _) eqn:Q; [|apply IH; intros e' I; apply H; right; exact I].
    apply String.eqb_eq in Q. exfalso. apply (H e); [left; reflexivity|congruence]. }
  assert (D : descend [Elem "VTKFile" attrs text (Elem "StructuredGrid" sg_attrs sg_text (before ++ Elem "Piece" [] p_text kids :: after)%list :: rest)]
    piece_path no_elem = Ok (Elem "Piece" [] p_text kids)).
  { unfold piece_path. cbn [descend]. change (first_child "VTKFile" [Elem "VTKFile" attrs text (Elem "StructuredGrid" sg_attrs sg_text (before ++ Elem "Piece" [] p_text kids :: after)%list :: rest)])
      with (Some (Elem "VTKFile" attrs text (Elem "StructuredGrid" sg_attrs sg_text (before ++ Elem "Piece" [] p_text kids :: after)%list :: rest))).
    cbv beta iota. cbn [elem_kids]. change (first_child "StructuredGrid" (Elem "StructuredGrid" sg_attrs sg_text (before ++ Elem "Piece" [] p_text kids :: after)%list :: rest))
      with (Some (Elem "StructuredGrid" sg_attrs sg_text (before ++ Elem "Piece" [] p_text kids :: after)%list)).
    cbv beta iota. cbn [elem_kids]. rewrite F. reflexivity. }
  rewrite D. reflexivity.
Qed.

Lemma pf_C83_no_extent :
  forall (V : Type) (N : Num V) (read : string -> res V) (attrs sg_attrs : list (string * string)) (text sg_text p_text : string)
    (before kids after rest : list xml) (raw : domain V),
  (forall e, In e before -> elem_name e <> "Piece") ->
  read_domain read [Elem "VTKFile" attrs text
    (Elem "StructuredGrid" sg_attrs sg_text (before ++ Elem "Piece" [] p_text kids :: after)%list :: rest)] raw = UB.
Proof. exact bare_piece. Qed.

