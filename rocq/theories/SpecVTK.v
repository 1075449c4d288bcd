(** Specification vocabulary for solution files. *)
From Coq Require Import String Ascii ZArith List.
From Verif Require Import Outcome ZList Num ModelDisc3D.

(** A word: not empty, and without blanks, tabs and line ends. *)
Definition word (s : string) : Prop :=
  s <> EmptyString /\
  forall n c, String.get n s = Some c -> c <> " "%char /\ c <> "009"%char /\ c <> "010"%char.

(** Printing v gives a word from which v is read back. *)
Definition prints {V} (show : V -> string) (read : string -> res V) (v : V) : Prop :=
  word (show v) /\ read (show v) = Ok v.

(** The same for every coordinate of a vertex of the grid with spacing dx. *)
Definition vertices_print3 {V} `{Num V} (show : V -> string) (read : string -> res V) (dom : domain V) (dx : V) : Prop :=
  (forall i, 0 <= i <= nx dom -> prints show read (nadd (xbeg dom) (nmul dx (nint i)))) /\
  (forall j, 0 <= j <= ny dom -> prints show read (nadd (ybeg dom) (nmul dx (nint j)))) /\
  (forall k, 0 <= k <= nz dom -> prints show read (nadd (zbeg dom) (nmul dx (nint k)))).
Definition vertices_print2 {V} `{Num V} (show : V -> string) (read : string -> res V) (dom : domain V) (dx : V) : Prop :=
  (forall i, 0 <= i <= nx dom -> prints show read (nadd (xbeg dom) (nmul dx (nint i)))) /\
  (forall j, 0 <= j <= nx dom -> prints show read (nadd (ybeg dom) (nmul dx (nint j)))).

(** a comes before b in the dictionary order, which file listings use. *)
Definition before (a b : string) : Prop :=
  exists p, (exists c d s t, a = (p ++ String c s)%string /\ b = (p ++ String d t)%string /\
              (Ascii.N_of_ascii c < Ascii.N_of_ascii d)%N) \/
            (a = p /\ exists d t, b = (p ++ String d t)%string).

(** A text that lists the words l: blanks, tabs and line ends anywhere around them, and at least one between two of them. *)
Definition gap (s : string) : Prop :=
  forall n c, String.get n s = Some c -> c = " "%char \/ c = "009"%char \/ c = "010"%char.
Inductive listing : list string -> string -> Prop :=
| listing_end b : gap b -> listing nil b
| listing_last b w : gap b -> word w -> listing (w :: nil) (b ++ w)%string
| listing_word b w g l s : gap b -> word w -> gap g -> g <> EmptyString -> listing l s ->
    listing (w :: l) (b ++ w ++ g ++ s)%string.

(** All the words can be read; w is the first one that cannot, and reading it throws. *)
Definition readable {V} (read : string -> res V) (l : list string) : Prop := forall w, In w l -> exists v, read w = Ok v.
Definition first_bad {V} (read : string -> res V) (l : list string) : Prop :=
  exists p w q, l = (p ++ w :: q)%list /\ readable read p /\ read w = Throw.

(** The number of vertices of a grid of a x b x c cells, 2D if c is zero. *)
Definition vertices (a b c : Z) : Z := if c =? 0 then (a + 1) * (b + 1) else (a + 1) * (b + 1) * (c + 1).

(** A text of one line. *)
Definition one_line (s : string) : Prop := forall n, String.get n s <> Some "010"%char.
