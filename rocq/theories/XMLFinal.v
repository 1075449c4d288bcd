(** Proofs of C81 and C82. *)
From Coq Require Import Ascii String Reals QArith NArith.
From Flocq Require Import IEEE754.BinarySingleNaN.
From Verif Require Import ModelLogger ModelOptions Outcome ZList ZListProofs Num ModelIndex ModelInt32 ModelDisc3D ModelDisc2D
  ModelTime ModelText ModelVTK ModelXML ModelMain ModelProgram ModelDouble SpecGrid SpecOptions SpecVTK SpecDouble SpecProgram
  SpecReject SpecXML ExampleNum Disc3DProofs Disc2DProofs Make3Proofs Make2Proofs TextProofs XMLProofs XML2Proofs Double4Proofs
  VTKFinal OptionsFinal ProgramFinal RerunFinal EarlyFinal RejectProofs RejectFinal DoubleFinal.
From Coq Require Import ZArith Lia List.
Import ListNotations.
Local Open Scope list_scope.
Local Open Scope string_scope.
Local Open Scope Z_scope.

(** ** Lemmas *)
Lemma written3 {V} (N : Num V) (show show6 : V -> string) : (forall v, printed (show v)) -> (forall v, printed (show6 v)) ->
  forall (dom : domain V) (d : disc3 V) (st : file_status V) (c : list V) (u : Z -> Z -> Z -> V),
  valid_domain3 dom -> make3 dom = Ok d -> holds_inside3 dom c u ->
  exists e x, print3 show show6 st d c = Ok (e ++ String newline "") /\ write3 show show6 st d c = Ok [x] /\ element e x.
Proof. intros S S6 dom d st c u. apply text3_document; assumption. Qed.
Lemma written2 {V} (N : Num V) (show show6 : V -> string) : (forall v, printed (show v)) -> (forall v, printed (show6 v)) ->
  forall (dom : domain V) (d : disc2 V) (st : file_status V) (c : list V) (u : Z -> Z -> V),
  valid_domain2 dom -> make2 dom = Ok d -> holds_inside2 dom c u ->
  exists e x, print2 show show6 st d c = Ok (e ++ String newline "") /\ write2 show show6 st d c = Ok [x] /\ element e x.
Proof. intros S S6 dom d st c u. apply text2_document; assumption. Qed.
Lemma newline_blank : SpecXML.blank_text (String newline "").
Proof. apply blank_lit. reflexivity. Qed.
Lemma nothing_blank : SpecXML.blank_text "".
Proof. apply blank_lit. reflexivity. Qed.
Lemma element_document e x b : element e x -> SpecXML.blank_text b -> document (e ++ b) x.
Proof. intros E B. exists "", e, b. split; [exact nothing_blank|]. auto. Qed.
Lemma element_alone e x : element e x -> document e x.
Proof. intros E. exists "", e, "". split; [exact nothing_blank|]. split; [exact E|]. split; [exact nothing_blank|]. cbn. rewrite XMLProofs.app_nil_r. reflexivity. Qed.
Lemma string_app_inj s t b : s ++ b = t ++ b -> s = t.
Proof.
  revert t. induction s as [|c s IH]; intros [|c' t]; cbn; intros E; try reflexivity.
  - exfalso. apply (f_equal String.length) in E. cbn in E. rewrite XMLProofs.app_length in E. lia.
  - exfalso. apply (f_equal String.length) in E. cbn in E. rewrite XMLProofs.app_length in E. lia.
  - injection E as -> E. f_equal. auto.
Qed.
Lemma cut_length q : q <> "" -> q <> String newline "" -> forall e p, e ++ String newline "" = p ++ q -> (1 < String.length q)%nat.
Proof.
  intros A B e p E. destruct q as [|a [|b q]]; [congruence| |cbn; lia]. exfalso. apply B. f_equal.
  revert p E. induction e as [|c e IH]; intros [|c' p] E; cbn in E.
  - congruence.
  - injection E as _ E. destruct p; discriminate.
  - injection E as _ E. destruct e; discriminate.
  - injection E as _ E. eauto.
Qed.

(** ** Examples *)
Lemma xe_document :
  document ("<a k:0.9-=" ++ quote ++ "1 2" ++ quote ++ "> <b>x</b>" ++ String newline "<c></c></a>") (Elem "a" [("k:0.9-", "1 2")] "" [Elem "b" [] "x" []; Elem "c" [] "" []]).
Proof.
  exists "", ("<a k:0.9-=" ++ quote ++ "1 2" ++ quote ++ "> <b>x</b>" ++ String newline "<c></c></a>"), "".
  split; [exact nothing_blank|]. split; [|split; [exact nothing_blank|reflexivity]].
  assert (G : forall n, n = "a" \/ n = "b" \/ n = "c" \/ n = "k:0.9-" -> good_name n).
  { intros n [->|[->|[->| ->]]]; [apply name_lit; [discriminate|reflexivity]..|].
    exists "k"%char, ":0.9-". split; [reflexivity|]. split; [left; right; cbn; lia|].
    intros n c E. do 5 (destruct n as [|n]; [injection E as <-; unfold name_next, name_first, letter; cbn; (auto || (right; left; lia))|]). discriminate. }
  assert (GN : good_attributes []) by (split; [constructor|intros a []]).
  apply (parent_element "a" [("k:0.9-", "1 2")] (" " ++ "<b>x</b>" ++ String newline "" ++ "<c></c>")).
  - auto.
  - split; [cbn; constructor; [auto|constructor]|]. intros a [<-|[]]. split; [apply G; auto|apply plain_lit; reflexivity].
  - apply (more_elements " " "<b>x</b>" _ (String newline "" ++ "<c></c>")); [apply blank_lit; reflexivity| |].
    + apply (text_element "b" [] "x"); auto; [apply plain_lit; reflexivity|]. intros H.
      destruct (H 0%nat "x"%char eq_refl) as [E|[E|E]]; discriminate E.
    + apply (more_elements (String newline "") "<c></c>" _ "" []); [exact newline_blank| |constructor; exact nothing_blank].
      apply (parent_element "c" [] ""); auto. constructor. exact nothing_blank.
Qed.
Lemma xe_box : valid_domain3 ex_box /\ (exists d, make3 (N := Num_double) ex_box = Ok d) /\
  holds_inside3 ex_box (repeat ex_tenths 64) (fun _ _ _ => ex_tenths) /\
  (forall v, printed (show_value v)) /\ (forall v, printed (show_time v)).
Proof.
  split; [repeat split; vm_compute; congruence|]. split; [apply is_ok_some; vm_compute; reflexivity|]. split.
  - split; [reflexivity|]. intros i j k (A & B & C). cbn in A, B, C.
    assert (I : i = 0 \/ i = 1) by lia. assert (J : j = 0 \/ j = 1) by lia. assert (K : k = 0 \/ k = 1) by lia.
    destruct I as [-> | ->], J as [-> | ->], K as [-> | ->]; reflexivity.
  - split; intros v; apply scientific_printed; lia.
Qed.
Lemma xe_square : valid_domain2 ex_square /\ (exists d, make2 (N := Num_double) ex_square = Ok d) /\
  holds_inside2 ex_square (repeat ex_tenths 49) (fun _ _ => ex_tenths).
Proof.
  split; [repeat split; vm_compute; congruence|]. split; [apply is_ok_some; vm_compute; reflexivity|].
  split; [reflexivity|]. intros i j (A & B). cbn in A, B.
  assert (I : i = 0 \/ i = 1 \/ i = 2) by lia. assert (J : j = 0 \/ j = 1 \/ j = 2) by lia.
  destruct I as [-> | [-> | ->]], J as [-> | [-> | ->]]; reflexivity.
Qed.
Lemma word_dec n : word (dec n).
Proof.
  assert (P : forall m, 0 <= m -> dec m <> "" /\ forall k c, String.get k (dec m) = Some c -> Double4Proofs.plain c).
  { intros m H. split; [apply (dec_spec m H)|]. apply Double4Proofs.every_get, Double4Proofs.plain_digits, dec_every, H. }
  destruct (Z_lt_le_dec n 0) as [L|L]; [|apply P, L]. rewrite dec_neg by exact L. split; [discriminate|].
  destruct (P (- n) ltac:(lia)) as (_ & Q). intros [|k] c E; cbn [String.get] in E; [|exact (Q k c E)].
  injection E as <-. split; [|split]; discriminate.
Qed.
Lemma xe_shows : (forall v, printed (pl_show ea_platform v)) /\ (forall v, printed (pl_show6 ea_platform v)).
Proof.
  assert (G : forall n, printed (dec n)).
  { intros n. split; [apply word_dec|apply dec_plain]. }
  split; intros v; apply G.
Qed.
Lemma xe_files3 : (forall v, printed (pl_show ea_platform v)) /\ (forall v, printed (pl_show6 ea_platform v)) /\ valid_domain3 rr_dom3 /\
  is_file3 ea_platform rr_dom3 12 4%R 1%R (ea_field3 7) (ea_doc3 7).
Proof. exact (conj (proj1 xe_shows) (conj (proj2 xe_shows) (conj rr_valid3 (ea_file3 7)))). Qed.
Lemma xe_files2 : valid_domain2 rr_dom2 /\ is_file2 ea_platform rr_dom2 12 4%R 1%R (ea_field2 7) (ea_doc2 7).
Proof. exact (conj rr_valid2 (ea_file2 7)). Qed.
Lemma xe_text3 : exists e x, is_text3 ea_platform rr_dom3 12 4%R 1%R (ea_field3 7) (e ++ String newline "") /\ element e x.
Proof.
  destruct (ea_file3 7) as (d & c & E & HC & _).
  destruct (written3 Num_R _ _ (proj1 xe_shows) (proj2 xe_shows) rr_dom3 d {| fs_iter := 12; fs_time := 4%R; fs_dt := 1%R |} c _ rr_valid3 E HC) as (e & x & P & _ & EL).
  exists e, x. split; [exists d, c; auto|exact EL].
Qed.
Lemma xe_text2 : exists e x, is_text2 ea_platform rr_dom2 12 4%R 1%R (ea_field2 7) (e ++ String newline "") /\ element e x.
Proof.
  destruct (ea_file2 7) as (d & c & E & HC & _).
  destruct (written2 Num_R _ _ (proj1 xe_shows) (proj2 xe_shows) rr_dom2 d {| fs_iter := 12; fs_time := 4%R; fs_dt := 1%R |} c _ rr_valid2 E HC) as (e & x & P & _ & EL).
  exists e, x. split; [exists d, c; auto|exact EL].
Qed.
Lemma element_end e x : element e x -> exists p, e = p ++ ">".
Proof.
  intros [n a t _ _ _ _|n a s l _ _ _];
    [exists ("<" ++ n ++ attributes_text a ++ ">" ++ t ++ "</" ++ n)|exists ("<" ++ n ++ attributes_text a ++ ">" ++ s ++ "</" ++ n)];
    rewrite !XMLProofs.app_assoc; reflexivity.
Qed.
Lemma last_two p : cut_off p ((p ++ ">") ++ String newline "") /\ String.length ((p ++ ">") ++ String newline "") = S (S (String.length p)).
Proof.
  split; [exists (">" ++ String newline ""); rewrite XMLProofs.app_assoc; split; [reflexivity|split; discriminate]|].
  rewrite !XMLProofs.app_length. cbn [String.length]. lia.
Qed.
Lemma xe_cut3 : exists text p, is_text3 ea_platform rr_dom3 12 4%R 1%R (ea_field3 7) text /\
  cut_off p text /\ String.length text = (S (S (String.length p))).
Proof.
  destruct xe_text3 as (e & x & T & EL). destruct (element_end e x EL) as (p & ->). exists ((p ++ ">") ++ String newline ""), p.
  split; [exact T|]. apply last_two.
Qed.
Lemma xe_cut2 : exists text p, is_text2 ea_platform rr_dom2 12 4%R 1%R (ea_field2 7) text /\
  cut_off p text /\ String.length text = (S (S (String.length p))).
Proof.
  destruct xe_text2 as (e & x & T & EL). destruct (element_end e x EL) as (p & ->). exists ((p ++ ">") ++ String newline ""), p.
  split; [exact T|]. apply last_two.
Qed.
Lemma xe_last : exists p u, valid_domain3 rr_dom3 /\ is_text3 ea_platform rr_dom3 12 4%R 1%R u (p ++ String newline "").
Proof. destruct xe_text3 as (e & x & T & EL). exists e, (ea_field3 7). split; [exact rr_valid3|exact T]. Qed.

Lemma pf_C81_reads :
  forall (s : string) (x : xml), document s x -> load_xml s = [x].
Proof. exact load_document. Qed.

Lemma pf_C81_written_3d :
  forall (V : Type) (N : Num V) (show show6 : V -> string),
  (forall v, printed (show v)) -> (forall v, printed (show6 v)) ->
  forall (dom : domain V) (d : disc3 V) (st : file_status V) (c : list V) (u : Z -> Z -> Z -> V),
  valid_domain3 dom -> make3 dom = Ok d -> holds_inside3 dom c u ->
  exists text x, print3 show show6 st d c = Ok text /\ document text x /\
    write3 show show6 st d c = Ok [x] /\ load_xml text = [x].
Proof.
  intros V N show show6 S S6 dom d st c u HV E HC. destruct (written3 N show show6 S S6 dom d st c u HV E HC) as (e & x & P & W & EL).
  pose proof (element_document e x _ EL newline_blank) as D. exists (e ++ String newline ""), x. split; [exact P|]. split; [exact D|].
  split; [exact W|]. apply load_document. exact D.
Qed.

Lemma pf_C81_written_2d :
  forall (V : Type) (N : Num V) (show show6 : V -> string),
  (forall v, printed (show v)) -> (forall v, printed (show6 v)) ->
  forall (dom : domain V) (d : disc2 V) (st : file_status V) (c : list V) (u : Z -> Z -> V),
  valid_domain2 dom -> make2 dom = Ok d -> holds_inside2 dom c u ->
  exists text x, print2 show show6 st d c = Ok text /\ document text x /\
    write2 show show6 st d c = Ok [x] /\ load_xml text = [x].
Proof.
  intros V N show show6 S S6 dom d st c u HV E HC. destruct (written2 N show show6 S S6 dom d st c u HV E HC) as (e & x & P & W & EL).
  pose proof (element_document e x _ EL newline_blank) as D. exists (e ++ String newline ""), x. split; [exact P|]. split; [exact D|].
  split; [exact W|]. apply load_document. exact D.
Qed.

Lemma pf_C81_doubles :
  forall x : double, printed (show_value x) /\ printed (show_time x).
Proof. intros x. split; apply scientific_printed; lia. Qed.

Lemma pf_C81_files_3d :
  forall (V : Type) (N : Num V) (pl : platform V) (dom : domain V) (iter : Z) (time dt : V) (u : Z -> Z -> Z -> V) (doc : list xml),
  (forall v, printed (pl_show pl v)) -> (forall v, printed (pl_show6 pl v)) -> valid_domain3 dom ->
  (is_file3 pl dom iter time dt u doc <-> exists text, is_text3 pl dom iter time dt u text /\ load_xml text = doc).
Proof.
  intros V N pl dom iter time dt u doc S S6 HV. split.
  - intros (d & c & E & HC & W). destruct (pf_C81_written_3d V N _ _ S S6 dom d {| fs_iter := iter; fs_time := time; fs_dt := dt |} c u HV E HC) as (text & x & P & _ & W' & L).
    exists text. split; [exists d, c; auto|]. rewrite W in W'. injection W' as ->. exact L.
  - intros (text & (d & c & E & HC & P) & L). destruct (pf_C81_written_3d V N _ _ S S6 dom d {| fs_iter := iter; fs_time := time; fs_dt := dt |} c u HV E HC) as (text' & x & P' & _ & W' & L').
    exists d, c. split; [exact E|]. split; [exact HC|]. rewrite P in P'. injection P' as <-. rewrite W'. congruence.
Qed.

Lemma pf_C81_files_2d :
  forall (V : Type) (N : Num V) (pl : platform V) (dom : domain V) (iter : Z) (time dt : V) (u : Z -> Z -> V) (doc : list xml),
  (forall v, printed (pl_show pl v)) -> (forall v, printed (pl_show6 pl v)) -> valid_domain2 dom ->
  (is_file2 pl dom iter time dt u doc <-> exists text, is_text2 pl dom iter time dt u text /\ load_xml text = doc).
Proof.
  intros V N pl dom iter time dt u doc S S6 HV. split.
  - intros (d & c & E & HC & W). destruct (pf_C81_written_2d V N _ _ S S6 dom d {| fs_iter := iter; fs_time := time; fs_dt := dt |} c u HV E HC) as (text & x & P & _ & W' & L).
    exists text. split; [exists d, c; auto|]. rewrite W in W'. injection W' as ->. exact L.
  - intros (text & (d & c & E & HC & P) & L). destruct (pf_C81_written_2d V N _ _ S S6 dom d {| fs_iter := iter; fs_time := time; fs_dt := dt |} c u HV E HC) as (text' & x & P' & _ & W' & L').
    exists d, c. split; [exact E|]. split; [exact HC|]. rewrite P in P'. injection P' as <-. rewrite W'. congruence.
Qed.

Lemma pf_C82_truncated_3d :
  forall (V : Type) (N : Num V) (pl : platform V) (dom : domain V) (iter : Z) (time dt : V) (u : Z -> Z -> Z -> V) (text p : string),
  (forall v, printed (pl_show pl v)) -> (forall v, printed (pl_show6 pl v)) -> valid_domain3 dom ->
  is_text3 pl dom iter time dt u text -> cut_off p text -> load_xml p = [].
Proof.
  intros V N pl dom iter time dt u text p S S6 HV (d & c & E & HC & P) (q & Q & NE & NN).
  destruct (written3 N _ _ S S6 dom d {| fs_iter := iter; fs_time := time; fs_dt := dt |} c u HV E HC) as (e & x & P' & _ & EL).
  rewrite P in P'. injection P' as ->. apply (cut_document e x p _ EL newline_blank q Q). exact (cut_length q NE NN e p Q).
Qed.

Lemma pf_C82_truncated_2d :
  forall (V : Type) (N : Num V) (pl : platform V) (dom : domain V) (iter : Z) (time dt : V) (u : Z -> Z -> V) (text p : string),
  (forall v, printed (pl_show pl v)) -> (forall v, printed (pl_show6 pl v)) -> valid_domain2 dom ->
  is_text2 pl dom iter time dt u text -> cut_off p text -> load_xml p = [].
Proof.
  intros V N pl dom iter time dt u text p S S6 HV (d & c & E & HC & P) (q & Q & NE & NN).
  destruct (written2 N _ _ S S6 dom d {| fs_iter := iter; fs_time := time; fs_dt := dt |} c u HV E HC) as (e & x & P' & _ & EL).
  rewrite P in P'. injection P' as ->. apply (cut_document e x p _ EL newline_blank q Q). exact (cut_length q NE NN e p Q).
Qed.

Lemma pf_C82_last_line_end :
  forall (V : Type) (N : Num V) (pl : platform V) (dom : domain V) (iter : Z) (time dt : V) (text p : string),
  (forall v, printed (pl_show pl v)) -> (forall v, printed (pl_show6 pl v)) ->
  (valid_domain3 dom /\ (exists u, is_text3 pl dom iter time dt u text) \/
   valid_domain2 dom /\ (exists u, is_text2 pl dom iter time dt u text)) ->
  text = p ++ String newline "" -> load_xml p = load_xml text /\ load_xml p <> [].
Proof.
  intros V N pl dom iter time dt text p S S6 H Q.
  assert (G : exists e x, text = e ++ String newline "" /\ element e x).
  { destruct H as [(HV & u & d & c & E & HC & P)|(HV & u & d & c & E & HC & P)].
    - destruct (written3 N _ _ S S6 dom d {| fs_iter := iter; fs_time := time; fs_dt := dt |} c u HV E HC) as (e & x & P' & _ & EL).
      rewrite P in P'. injection P' as ->. eauto.
    - destruct (written2 N _ _ S S6 dom d {| fs_iter := iter; fs_time := time; fs_dt := dt |} c u HV E HC) as (e & x & P' & _ & EL).
      rewrite P in P'. injection P' as ->. eauto. }
  destruct G as (e & x & T & EL). rewrite T in Q. apply string_app_inj in Q as <-.
  rewrite T, (load_document _ x (element_document e x _ EL newline_blank)), (load_document _ x (element_alone e x EL)). split; [reflexivity|discriminate].
Qed.

Lemma pf_C82_restart_refuted :
  forall (V : Type) (N : Num V) (pl : platform V) (fuel : nat) (fs : string -> option string) (vts : string -> list xml)
    (other : members V -> option (res (pworld V))) (args : list string) (opts m : members V) (vm : vmap V) (r : string)
    (dom : domain V) (iter : Z) (time dt : V) (text p : string),
  parse_options (pl_read pl) (pl_lit pl) (pl_eps100 pl) (pl_max100 pl) fs args opts = Ok (Running m vm) ->
  unset (base_opts (pl_lit pl) (pl_eps100 pl) (pl_max100 pl)) opts ->
  m "initial_condition_file" = VString r -> r <> "none" ->
  (forall v, printed (pl_show pl v)) -> (forall v, printed (pl_show6 pl v)) ->
  (valid_domain3 dom /\ (exists u, is_text3 pl dom iter time dt u text) \/
   valid_domain2 dom /\ (exists u, is_text2 pl dom iter time dt u text)) ->
  cut_off p text -> vts r = load_xml p ->
  madgicart pl fuel fs vts other args opts = Some UB.
Proof.
  intros V N pl fuel fs vts other args opts m vm r dom iter time dt text p PO UN MR NR S S6 H C L.
  eapply no_file; eauto. rewrite L. destruct H as [(HV & u & T)|(HV & u & T)].
  - exact (pf_C82_truncated_3d V N pl dom iter time dt u text p S S6 HV T C).
  - exact (pf_C82_truncated_2d V N pl dom iter time dt u text p S S6 HV T C).
Qed.

