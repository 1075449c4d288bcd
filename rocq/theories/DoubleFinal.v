(** Proofs of C73. *)
From Coq Require Import ZArith Reals String Ascii List Lra Lia SpecFloat.
From Flocq Require Import Core.Raux IEEE754.BinarySingleNaN.
From Verif Require Import Outcome ZList Num SpecGrid ModelDisc3D ModelDisc2D ModelVTK SpecVTK ModelDouble SpecDouble SpecNumber
  Double2Proofs Double3Proofs Double4Proofs Double5Proofs Double6Proofs VTKFinal.
Import ListNotations.
Local Open Scope string_scope.
Local Open Scope list_scope.
Local Open Scope Z_scope.

(** Doubles for the examples. *)
Definition dbl (s : string) : double := match read_double s with Ok x => x | _ => B754_nan end.
Definition ex_tenths : double := nadd (Num := Num_double) (nadd (Num := Num_double) (dbl "0.1") (dbl "0.1")) (dbl "0.1").
Definition ex_short : literal :=
  {| l_minus := false; l_plus := false; l_whole := [1]; l_fraction := []; l_exponent := Some ("-"%string, [6]) |}.
Lemma ex_short_good : good_literal ex_short.
Proof. repeat split; cbn; try discriminate; try (repeat constructor; lia); auto. Qed.
Lemma ex_short_same : read_double "1e-6" = read_double "0.000001".
Proof. reflexivity. Qed.
Definition ex_literal : literal :=
  {| l_minus := true; l_plus := false; l_whole := [1; 2]; l_fraction := [5; 0]; l_exponent := Some ("-", [0; 1]) |}.
Definition ex_square : domain double :=
  {| nx := 3; ny := 3; nz := 1; xbeg := dbl "0.1"; xend := dbl "0.3"; ybeg := dbl "0"; yend := dbl "0.2"; zbeg := dbl "0"; zend := dbl "0";
     xbc := Periodic; ybc := Periodic; zbc := Periodic; nhalo := 2 |}.
Definition ex_box : domain double :=
  {| nx := 2; ny := 2; nz := 2; xbeg := dbl "-0.5"; xend := dbl "0.5"; ybeg := dbl "-0.5"; yend := dbl "0.5"; zbeg := dbl "0"; zend := dbl "1";
     xbc := Periodic; ybc := Neumann; zbc := Periodic; nhalo := 1 |}.
Definition ex_status : file_status double := {| fs_iter := 1; fs_time := dbl "1"; fs_dt := dbl "1" |}.

(** The spacing of a grid and of the one rebuilt from its solution file. *)
Definition spacings (dom : domain double) : option (spec_float * spec_float * Z) :=
  match make2 (N := Num_double) dom with
  | Ok d =>
      match write2 show_value show_time {| fs_iter := 1; fs_time := B754_zero false; fs_dt := B754_zero false |} d
              (repeat (dbl "0.5") (Z.to_nat (cells2 dom))) with
      | Ok doc =>
          match read_domain (N := Num_double) read_double doc dom with
          | Ok (dom', _) =>
              match make2 (N := Num_double) dom' with
              | Ok d' => Some (B2SF (d2_dx d), B2SF (d2_dx d'), nx dom')
              | _ => None
              end
          | _ => None
          end
      | _ => None
      end
  | _ => None
  end.
Lemma spacings_ex : spacings ex_square =
  Some (S754_finite false 4803839602528529 (-56), S754_finite false 4803839602528530 (-56), 3).
Proof. vm_compute. reflexivity. Qed.

Definition is_ok {A} (r : res A) : bool := match r with Ok _ => true | _ => false end.
Lemma is_ok_some {A} (r : res A) : is_ok r = true -> exists a, r = Ok a.
Proof. destruct r; try discriminate. eauto. Qed.
Lemma ok_inj {A} (a b : A) : Ok a = Ok b -> a = b.
Proof. intros H. injection H. auto. Qed.

Lemma all_print (x : double) : prints show_value read_double x.
Proof. split; [apply word_scientific; lia|apply read_show_value]. Qed.

Lemma pf_C73_read :
  forall l : literal, good_literal l ->
  ((Rabs (rounded (literal_value l)) < largest)%R ->
   exists x : double, read_double (literal_text l) = Ok x /\ is_finite x = true /\
     value_of x = rounded (literal_value l) /\ Bsign x = l_minus l) /\
  ((largest <= Rabs (rounded (literal_value l)))%R -> read_double (literal_text l) = Throw).
Proof.
  intros l G. pose proof (read_correct l G) as H. split; intros B.
  - rewrite Rlt_bool_true in H by exact B. exact H.
  - rewrite Rlt_bool_false in H by exact B. exact H.
Qed.

Lemma pf_C73_capitals :
  forall s t : string, same_text s t -> read_double s = read_double t.
Proof. intros s t H. unfold read_double. rewrite (read_same s t H). reflexivity. Qed.

Lemma pf_C73_special :
  forall s t : string, same_text s t ->
  (t = "inf" \/ t = "infinity" ->
     read_double s = Ok (B754_infinity false) /\ read_double ("+" ++ s)%string = Ok (B754_infinity false) /\
     read_double ("-" ++ s)%string = Ok (B754_infinity true)) /\
  (t = "nan" -> read_double s = Ok B754_nan).
Proof.
  intros s t H.
  assert (K : forall c, same_text (String c s) (String c t)) by (intros c; split; [left; reflexivity|exact H]).
  split; intros E.
  - rewrite (pf_C73_capitals _ _ H). cbn [append].
    rewrite (pf_C73_capitals _ _ (K "+"%char)), (pf_C73_capitals _ _ (K "-"%char)).
    destruct E as [-> | ->]; repeat split; reflexivity.
  - rewrite (pf_C73_capitals _ _ H). subst t. reflexivity.
Qed.

Lemma pf_C73_no_point :
  forall l : literal, good_literal l -> l_fraction l = [] -> read_double (short_text l) = read_double (literal_text l).
Proof. intros l G F. unfold read_double. rewrite short_literal by auto. reflexivity. Qed.

Lemma pf_C73_refuses :
  forall s : string, ~ is_number s -> ~ is_word s -> read_double s = Throw.
Proof.
  intros s A B. unfold read_double. destruct (read_other s) as [E|[E|E]]; [rewrite E; reflexivity|contradiction|contradiction].
Qed.

Lemma pf_C73_print :
  forall (p : Z) (x : double), 2 <= p -> is_finite x = true -> value_of x <> 0%R ->
  exists l k, good_literal l /\ scientific p (B2SF x) = literal_text l /\ List.length (l_whole l) = 1%nat /\
    Z.of_nat (List.length (l_fraction l)) = p - 1 /\ l_minus l = Bsign x /\ order (value_of x) k /\
    (Rabs (literal_value l - value_of x) <= powerRZ 10 (k - (p - 1)) / 2)%R.
Proof.
  intros p x Hp Fx NZ. destruct x as [s|s| |s m e h]; try discriminate Fx.
  - exfalso. apply NZ. reflexivity.
  - exact (print_literal p s m e h Hp).
Qed.

Lemma pf_C73_round_trip :
  forall x : double, prints show_value read_double x.
Proof. exact all_print. Qed.

Lemma pf_C73_sixteen_refuted :
  exists x y : double, read_double (scientific 16 (B2SF x)) = Ok y /\ x <> y.
Proof.
  exists ex_tenths, (dbl "0.3"). split.
  - vm_compute. reflexivity.
  - intros E. apply (f_equal B2SF) in E. vm_compute in E. discriminate E.
Qed.

Lemma pf_C73_seven_digits :
  forall x : double, short_decimal x -> prints show_time read_double x.
Proof. intros x (Fx & v & D & N & Vx). split; [apply word_scientific; lia|]. exact (seven_digits x v D N Fx Vx). Qed.

Lemma pf_C73_time_error :
  forall x : double, is_finite x = true ->
  (powerRZ 10 (-300) <= Rabs (value_of x) <= powerRZ 10 300)%R ->
  word (show_time x) /\
  exists y : double, read_double (show_time x) = Ok y /\ is_finite y = true /\
    (Rabs (value_of y - value_of x) <= 51 / 100000000 * Rabs (value_of x))%R.
Proof. intros x Fx B. split; [apply word_scientific; lia|]. exact (time_error x Fx B). Qed.

Lemma pf_C73_time_refuted :
  exists x y z : double, read_double "0.1" = Ok x /\
    y = nadd (Num := Num_double) (nadd (Num := Num_double) x x) x /\ read_double (show_time y) = Ok z /\ z <> y.
Proof.
  exists (dbl "0.1"), ex_tenths, (dbl "0.3"). split; [reflexivity|]. split; [reflexivity|]. split; [vm_compute; reflexivity|].
  intros E. apply (f_equal B2SF) in E. vm_compute in E. discriminate E.
Qed.

Lemma pf_C73_file_3d :
  forall (N : Num double) (dom dom' : domain double) (d d' : disc3 double) (st : file_status double)
    (c c0 : list double) (u : Z -> Z -> Z -> double) (raw : domain double),
  valid_domain3 dom -> make3 dom = Ok d -> holds_inside3 dom c u ->
  nx dom <= 2147483647 -> ny dom <= 2147483647 -> nz dom <= 2147483647 ->
  valid_domain3 dom' -> make3 dom' = Ok d' -> nx dom' = nx dom -> ny dom' = ny dom -> nz dom' = nz dom ->
  zlen c0 = cells3 dom' ->
  exists doc, write3 show_value show_time st d c = Ok doc /\
    (exists c1, set_solution read_double doc raw (Target3 d' c0) = Ok (Target3 d' c1) /\
      holds_inside3 dom' c1 u /\ same_halo3 dom' c0 c1) /\
    (forall d2 c2, set_solution read_double doc raw (Target2 d2 c2) = Throw).
Proof.
  intros N dom dom' d d' st c c0 u raw HV HM HI N1 N2 N3 HV' HM' E1 E2 E3 L.
  apply (pf_C55_round_trip_3d double N show_value show_time read_double dom dom' d d' st c c0 u raw HV HM HI N1 N2 N3); auto.
  - split; [|split]; intros; apply all_print.
  - intros. apply all_print.
Qed.

Lemma pf_C73_file_2d :
  forall (N : Num double) (dom dom' : domain double) (d d' : disc2 double) (st : file_status double)
    (c c0 : list double) (u : Z -> Z -> double) (raw : domain double),
  valid_domain2 dom -> make2 dom = Ok d -> holds_inside2 dom c u -> nx dom <= 2147483647 ->
  valid_domain2 dom' -> make2 dom' = Ok d' -> nx dom' = nx dom -> zlen c0 = cells2 dom' ->
  exists doc, write2 show_value show_time st d c = Ok doc /\
    (exists c1, set_solution read_double doc raw (Target2 d' c0) = Ok (Target2 d' c1) /\
      holds_inside2 dom' c1 u /\ same_halo2 dom' c0 c1) /\
    (forall d3 c3, set_solution read_double doc raw (Target3 d3 c3) = Throw).
Proof.
  intros N dom dom' d d' st c c0 u raw HV HM HI N1 HV' HM' E1 L.
  apply (pf_C55_round_trip_2d double N show_value show_time read_double (B754_zero false) dom dom' d d' st c c0 u raw); auto.
  - split; intros; apply all_print.
  - intros. apply all_print.
Qed.

Lemma pf_C73_spacing_refuted :
  exists (dom dom' : domain double) (d d' : disc2 double) (c : list double) (doc : list xml) (dim : Z),
  valid_domain2 dom /\ make2 (N := Num_double) dom = Ok d /\ zlen c = cells2 dom /\
  write2 show_value show_time {| fs_iter := 1; fs_time := B754_zero false; fs_dt := B754_zero false |} d c = Ok doc /\
  read_domain (N := Num_double) read_double doc dom = Ok (dom', dim) /\
  nx dom' = nx dom /\ make2 (N := Num_double) dom' = Ok d' /\ d2_dx d' <> d2_dx d.
Proof.
  pose proof spacings_ex as H. unfold spacings in H.
  destruct (make2 (N := Num_double) ex_square) as [d| | |] eqn:E1; try discriminate H.
  match type of H with context [write2 ?a ?b ?c ?d ?e] => destruct (write2 a b c d e) as [doc| | |] eqn:E2; try discriminate H end.
  match type of H with context [read_domain ?a ?b ?c] => destruct (read_domain (N := Num_double) a b c) as [(dom', dim)| | |] eqn:E3; try discriminate H end.
  destruct (make2 (N := Num_double) dom') as [d'| | |] eqn:E4; try discriminate H.
  injection H as H1 H2 H3.
  exists ex_square, dom', d, d', (repeat (dbl "0.5") (Z.to_nat (cells2 ex_square))), doc, dim.
  split; [repeat split; vm_compute; congruence|]. split; [exact E1|]. split; [reflexivity|]. split; [exact E2|]. split; [exact E3|].
  split; [exact H3|]. split; [exact E4|]. intros E. rewrite E, H1 in H2. discriminate H2.
Qed.
