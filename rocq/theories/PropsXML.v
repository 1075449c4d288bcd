(** The characters of a solution file, and files that are cut off: C81, C82.

    [print3 show show6 st d c] is the text written to a solution file in 3D, character by character; [write3] the XML tree it stands for
    (C55, C56 and the restart properties speak of that tree); [load_xml] what the XML library makes of a text: the elements at its top, none when it
    finds an error.  [document s x] (SpecXML) says, independently of both, that the text s is a well-formed document with the tree x.
    [printed]: a word without special characters.  [is_text3 pl dom iter time dt u text]: text is the solution file of a run on that grid
    at that step and time with the values u.  [cut_off p text]: p is the beginning of text and more than the last line end is missing. *)
From Coq Require Import String Ascii Reals QArith.
From Flocq Require Import IEEE754.BinarySingleNaN.
From Verif Require Import ModelLogger ModelOptions Outcome ZList Num ModelDisc3D ModelDisc2D ModelTime ModelVTK ModelXML ModelProgram ModelDouble
  SpecGrid SpecOptions SpecProgram SpecReject SpecXML ExampleNum ProgramFinal RerunFinal EarlyFinal RejectFinal DoubleFinal XMLFinal.
From Coq Require Import ZArith List.
Import ListNotations.
Local Open Scope list_scope.
Local Open Scope string_scope.
Local Open Scope Z_scope.

(** C81: the XML library reads every well-formed text back as the tree it denotes. *)
Theorem C81_reads :
  forall (s : string) (x : xml), document s x -> load_xml s = [x].
Proof. exact pf_C81_reads. Qed.
Print Assumptions C81_reads.

Example C81_reads_ex :
  document ("<a k:0.9-=" ++ quote ++ "1 2" ++ quote ++ "> <b>x</b>" ++ String newline "<c></c></a>") (Elem "a" [("k:0.9-", "1 2")] "" [Elem "b" [] "x" []; Elem "c" [] "" []]).
Proof. exact xe_document. Qed.

(** C81: the characters that a solution file in 3D is made of are a well-formed document, and the library reads
    them as the tree that the writer meant. *)
Theorem C81_written_3d :
  forall (V : Type) (N : Num V) (show show6 : V -> string),
  (forall v, printed (show v)) -> (forall v, printed (show6 v)) ->
  forall (dom : domain V) (d : disc3 V) (st : file_status V) (c : list V) (u : Z -> Z -> Z -> V),
  valid_domain3 dom -> make3 dom = Ok d -> holds_inside3 dom c u ->
  exists text x, print3 show show6 st d c = Ok text /\ document text x /\
    write3 show show6 st d c = Ok [x] /\ load_xml text = [x].
Proof. exact pf_C81_written_3d. Qed.
Print Assumptions C81_written_3d.

Example C81_written_3d_ex : valid_domain3 ex_box /\ (exists d, make3 (N := Num_double) ex_box = Ok d) /\
  holds_inside3 ex_box (repeat ex_tenths 64) (fun _ _ _ => ex_tenths) /\
  (forall v, printed (show_value v)) /\ (forall v, printed (show_time v)).
Proof. exact xe_box. Qed.

(** The same in 2D. *)
Theorem C81_written_2d :
  forall (V : Type) (N : Num V) (show show6 : V -> string),
  (forall v, printed (show v)) -> (forall v, printed (show6 v)) ->
  forall (dom : domain V) (d : disc2 V) (st : file_status V) (c : list V) (u : Z -> Z -> V),
  valid_domain2 dom -> make2 dom = Ok d -> holds_inside2 dom c u ->
  exists text x, print2 show show6 st d c = Ok text /\ document text x /\
    write2 show show6 st d c = Ok [x] /\ load_xml text = [x].
Proof. exact pf_C81_written_2d. Qed.
Print Assumptions C81_written_2d.

Example C81_written_2d_ex : valid_domain2 ex_square /\ (exists d, make2 (N := Num_double) ex_square = Ok d) /\
  holds_inside2 ex_square (repeat ex_tenths 49) (fun _ _ => ex_tenths).
Proof. exact xe_square. Qed.

(** C81: every double, also the infinities and the value that is not a number, is printed without a character
    that XML gives a meaning to. *)
Theorem C81_doubles :
  forall x : double, printed (show_value x) /\ printed (show_time x).
Proof. exact pf_C81_doubles. Qed.
Print Assumptions C81_doubles.

Example C81_doubles_ex : show_value (dbl "-0.1") = "-1.0000000000000001e-01" /\ show_value B754_nan = "nan".
Proof. split; vm_compute; reflexivity. Qed.

(** C81: what a program that restarts finds in a file is what the program that wrote it meant: the files with
    the given contents are exactly the texts written for them. *)
Theorem C81_files_3d :
  forall (V : Type) (N : Num V) (pl : platform V) (dom : domain V) (iter : Z) (time dt : V) (u : Z -> Z -> Z -> V) (doc : list xml),
  (forall v, printed (pl_show pl v)) -> (forall v, printed (pl_show6 pl v)) -> valid_domain3 dom ->
  (is_file3 pl dom iter time dt u doc <-> exists text, is_text3 pl dom iter time dt u text /\ load_xml text = doc).
Proof. exact pf_C81_files_3d. Qed.
Print Assumptions C81_files_3d.

Example C81_files_3d_ex : (forall v, printed (pl_show ea_platform v)) /\ (forall v, printed (pl_show6 ea_platform v)) /\ valid_domain3 rr_dom3 /\
  is_file3 ea_platform rr_dom3 12 4%R 1%R (ea_field3 7) (ea_doc3 7).
Proof. exact xe_files3. Qed.

(** The same in 2D. *)
Theorem C81_files_2d :
  forall (V : Type) (N : Num V) (pl : platform V) (dom : domain V) (iter : Z) (time dt : V) (u : Z -> Z -> V) (doc : list xml),
  (forall v, printed (pl_show pl v)) -> (forall v, printed (pl_show6 pl v)) -> valid_domain2 dom ->
  (is_file2 pl dom iter time dt u doc <-> exists text, is_text2 pl dom iter time dt u text /\ load_xml text = doc).
Proof. exact pf_C81_files_2d. Qed.
Print Assumptions C81_files_2d.

Example C81_files_2d_ex : valid_domain2 rr_dom2 /\ is_file2 ea_platform rr_dom2 12 4%R 1%R (ea_field2 7) (ea_doc2 7).
Proof. exact xe_files2. Qed.

(** C82: of a solution file in 3D that was cut off at any place, because the program was killed or the disk was
    full, the library reads nothing at all: never a part of the data. *)
Theorem C82_truncated_3d :
  forall (V : Type) (N : Num V) (pl : platform V) (dom : domain V) (iter : Z) (time dt : V) (u : Z -> Z -> Z -> V) (text p : string),
  (forall v, printed (pl_show pl v)) -> (forall v, printed (pl_show6 pl v)) -> valid_domain3 dom ->
  is_text3 pl dom iter time dt u text -> cut_off p text -> load_xml p = [].
Proof. exact pf_C82_truncated_3d. Qed.
Print Assumptions C82_truncated_3d.

Example C82_truncated_3d_ex : exists text p, is_text3 ea_platform rr_dom3 12 4%R 1%R (ea_field3 7) text /\
  cut_off p text /\ String.length text = (S (S (String.length p))).
Proof. exact xe_cut3. Qed.

(** The same in 2D. *)
Theorem C82_truncated_2d :
  forall (V : Type) (N : Num V) (pl : platform V) (dom : domain V) (iter : Z) (time dt : V) (u : Z -> Z -> V) (text p : string),
  (forall v, printed (pl_show pl v)) -> (forall v, printed (pl_show6 pl v)) -> valid_domain2 dom ->
  is_text2 pl dom iter time dt u text -> cut_off p text -> load_xml p = [].
Proof. exact pf_C82_truncated_2d. Qed.
Print Assumptions C82_truncated_2d.

Example C82_truncated_2d_ex : exists text p, is_text2 ea_platform rr_dom2 12 4%R 1%R (ea_field2 7) text /\
  cut_off p text /\ String.length text = (S (S (String.length p))).
Proof. exact xe_cut2. Qed.

(** C82: only the line end after the last tag may be missing; the file is then read as if it were complete. *)
Theorem C82_last_line_end :
  forall (V : Type) (N : Num V) (pl : platform V) (dom : domain V) (iter : Z) (time dt : V) (text p : string),
  (forall v, printed (pl_show pl v)) -> (forall v, printed (pl_show6 pl v)) ->
  (valid_domain3 dom /\ (exists u, is_text3 pl dom iter time dt u text) \/
   valid_domain2 dom /\ (exists u, is_text2 pl dom iter time dt u text)) ->
  text = p ++ String newline "" -> load_xml p = load_xml text /\ load_xml p <> [].
Proof. exact pf_C82_last_line_end. Qed.
Print Assumptions C82_last_line_end.

Example C82_last_line_end_ex : exists p u, valid_domain3 rr_dom3 /\ is_text3 ea_platform rr_dom3 12 4%R 1%R u (p ++ String newline "").
Proof. exact xe_last. Qed.

(** C82: the program does not notice that the file it restarts from is cut off: it goes on with a null pointer,
    which is undefined behaviour, for every beginning of every solution file. *)
Theorem C82_restart_refuted :
  forall (V : Type) (N : Num V) (pl : platform V) (fuel : nat) (fs : string -> option string) (vts : string -> list xml)
    (other : members V -> option (res (pworld V))) (args : list string) (opts m : members V) (vm : vmap V) (r : string)
    (dom : domain V) (iter : Z) (time dt : V) (text p : string),
  parse_options (pl_read pl) (pl_lit pl) (pl_eps100 pl) (pl_max100 pl) fs args opts = Ok (Running m vm) ->
  unset (base_opts (pl_lit pl) (pl_eps100 pl) (pl_max100 pl)) opts ->
  m "initial_condition_file" = VString r -> r <> "none" ->
  (forall v, printed (pl_show pl v)) -> (forall v, printed (pl_show6 pl v)) ->
  (valid_domain3 dom /\ (exists u, is_text3 pl dom iter time dt u text) \/
   valid_domain2 dom /\ (exists u, is_text2 pl dom iter time dt u text)) ->
  cut_off p text -> vts r = load_xml p ->
  madgicart pl fuel fs vts other args opts = Some UB.
Proof. exact pf_C82_restart_refuted. Qed.
Print Assumptions C82_restart_refuted.

Example C82_restart_refuted_ex : (exists m vm, parse_options (pl_read ea_platform) (pl_lit ea_platform) (pl_eps100 ea_platform) (pl_max100 ea_platform) ex_none
    (re_restart_args "3") ex_members = Ok (Running m vm) /\ m "initial_condition_file" = VString "old") /\
  unset (base_opts (pl_lit ea_platform) (pl_eps100 ea_platform) (pl_max100 ea_platform)) ex_members.
Proof. split; [exact re_missing|exact re_unset_ea]. Qed.
