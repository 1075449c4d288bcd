(** A small part of XML: which text is a document, and the tree it denotes. *)
From Coq Require Import List String Ascii NArith.
From Verif Require Import Outcome ZList Num ModelDisc3D ModelDisc2D ModelVTK ModelXML ModelProgram SpecGrid SpecVTK.
Import ListNotations.
Local Open Scope string_scope.

Definition quote : string := String """" "".
Definition newline : ascii := "010"%char.
Definition tabulator : ascii := "009"%char.

(** Every character of s. *)
Definition all_chars (P : ascii -> Prop) (s : string) : Prop := forall n c, String.get n s = Some c -> P c.

(** Blank text; names; plain text, which needs no escapes: printable characters, tabs and line ends, but none
    of those with a meaning in XML. *)
Definition blank_text (s : string) : Prop := all_chars (fun c => c = " "%char \/ c = newline \/ c = tabulator) s.
Definition letter (c : ascii) : Prop := (65 <= N_of_ascii c <= 90)%N \/ (97 <= N_of_ascii c <= 122)%N.
Definition name_first (c : ascii) : Prop := letter c \/ c = "_"%char \/ c = ":"%char.
Definition name_next (c : ascii) : Prop := name_first c \/ (48 <= N_of_ascii c <= 57)%N \/ c = "."%char \/ c = "-"%char.
Definition good_name (s : string) : Prop := exists c r, s = String c r /\ name_first c /\ all_chars name_next r.
Definition plain_char (c : ascii) : Prop :=
  (32 <= N_of_ascii c <= 126)%N /\ c <> "<"%char /\ c <> ">"%char /\ c <> "&"%char /\ c <> """"%char.
Definition plain (s : string) : Prop := all_chars (fun c => plain_char c \/ c = newline \/ c = tabulator) s.

(** The attributes of a tag. *)
Definition attribute_text (a : string * string) : string := " " ++ fst a ++ "=" ++ quote ++ snd a ++ quote.
Fixpoint attributes_text (l : list (string * string)) : string :=
  match l with [] => "" | a :: r => attribute_text a ++ attributes_text r end.
Definition good_attributes (l : list (string * string)) : Prop :=
  NoDup (map fst l) /\ forall a, In a l -> good_name (fst a) /\ plain (snd a).

(** An element that holds text, or elements separated by blank text; a document is one element. *)
Inductive element : string -> xml -> Prop :=
| text_element : forall n a t, good_name n -> good_attributes a -> plain t -> ~ blank_text t ->
    element ("<" ++ n ++ attributes_text a ++ ">" ++ t ++ "</" ++ n ++ ">") (Elem n a t [])
| parent_element : forall n a s l, good_name n -> good_attributes a -> elements s l ->
    element ("<" ++ n ++ attributes_text a ++ ">" ++ s ++ "</" ++ n ++ ">") (Elem n a "" l)
with elements : string -> list xml -> Prop :=
| no_elements : forall b, blank_text b -> elements b []
| more_elements : forall b e x s l, blank_text b -> element e x -> elements s l -> elements (b ++ e ++ s) (x :: l).
Definition document (s : string) (x : xml) : Prop :=
  exists b e b', blank_text b /\ element e x /\ blank_text b' /\ s = b ++ e ++ b'.

(** p is the beginning of s, and what is missing is more than the last line end. *)
Definition cut_off (p s : string) : Prop := exists t, s = p ++ t /\ t <> "" /\ t <> String newline "".

(** A word without special characters: what printing a number must give. *)
Definition printed (s : string) : Prop := word s /\ plain s.

(** The text is the solution file of a run on the grid of dom, with the given number of steps, time and step
    size, and the values u. *)
Definition is_text3 {V} `{N : Num V} (pl : platform V) (dom : domain V) (iter : Z) (time dt : V) (u : Z -> Z -> Z -> V)
    (text : string) : Prop :=
  exists d c, make3 dom = Ok d /\ holds_inside3 dom c u /\
    print3 (pl_show pl) (pl_show6 pl) {| fs_iter := iter; fs_time := time; fs_dt := dt |} d c = Ok text.
Definition is_text2 {V} `{N : Num V} (pl : platform V) (dom : domain V) (iter : Z) (time dt : V) (u : Z -> Z -> V)
    (text : string) : Prop :=
  exists d c, make2 dom = Ok d /\ holds_inside2 dom c u /\
    print2 (pl_show pl) (pl_show6 pl) {| fs_iter := iter; fs_time := time; fs_dt := dt |} d c = Ok text.
