(** Vocabulary for runs of the whole program. *)
From Coq Require Import String.
From Verif Require Import ModelLogger ModelOptions Outcome ZList Num ModelDisc3D ModelDisc2D ModelCH ModelTime ModelMon ModelVTK ModelProgram SpecGrid SpecField SpecMon SpecVTK.
From Coq Require Import Reals List.
Local Open Scope list_scope.
Local Open Scope Z_scope.

(** The options have the values listed. *)
Definition given {V} (m : members V) (l : list (string * value V)) : Prop := Forall (fun p => m (fst p) = snd p) l.

Section Steps.
  Context {V : Type} `{N : Num V}.

  (** The proposed step p, shortened if it would reach the final time. *)
  Definition shortened (tf t p : V) : V := if ngeb (nadd t p) tf then nsub tf t else p.

  (** The steps (start time, size) of a run that has made k steps, is at time t and makes a step of
      size dt next; [last] tells whether that step ends at the final time.  [proposes dt p]: after a
      step of size dt, p may be proposed for the next.  The last argument is the step size the run
      ends with. *)
  Inductive marches (proposes : V -> V -> Prop) (tf : V) (limit : Z) : Z -> V -> V -> bool -> list (V * V) -> V -> Prop :=
  | march_last k t dt : marches proposes tf limit k t dt true [(t, dt)] dt
  | march_limit k t dt p : proposes dt p -> limit <= k + 1 ->
      marches proposes tf limit k t dt false [(t, dt)] (shortened tf (nadd t dt) p)
  | march_on k t dt p l e : proposes dt p -> k + 1 < limit ->
      marches proposes tf limit (k + 1) (nadd t dt) (shortened tf (nadd t dt) p) (ngeb (nadd (nadd t dt) p) tf) l e ->
      marches proposes tf limit k t dt false ((t, dt) :: l) e.

  (** After each of these steps: its number, the time reached, the step size and the value, where one
      step leads from u to [next t dt u]. *)
  Fixpoint reached {A} (next : V -> V -> A -> A) (k : Z) (u : A) (steps : list (V * V)) : list (Z * V * V * A) :=
    match steps with
    | [] => []
    | (t, dt) :: l => (k + 1, nadd t dt, dt, next t dt u) :: reached next (k + 1) (next t dt u) l
    end.
  Fixpoint final {A} (next : V -> V -> A -> A) (u : A) (steps : list (V * V)) : A :=
    match steps with
    | [] => u
    | (t, dt) :: l => final next (next t dt u) l
    end.
End Steps.

(** The options a run with an explicit integrator and the Cahn-Hilliard equations depends on. *)
Record settings (V : Type) : Type := {
  s_nx : Z; s_ny : Z; s_nz : Z; s_xbeg : V; s_xend : V; s_ybeg : V; s_zbeg : V;
  s_bc_x : string; s_bc_y : string; s_bc_z : string; s_variant : Z; s_m : V; s_sigma : V; s_eps2 : V;
  s_t0 : V; s_tfinal : V; s_dt : V; s_max_steps : Z; s_log_every : Z; s_save_every : Z;
  s_log_file : string; s_output : string }.
Arguments s_nx {V}. Arguments s_ny {V}. Arguments s_nz {V}. Arguments s_xbeg {V}. Arguments s_xend {V}. Arguments s_ybeg {V}.
Arguments s_zbeg {V}. Arguments s_bc_x {V}. Arguments s_bc_y {V}. Arguments s_bc_z {V}. Arguments s_variant {V}. Arguments s_m {V}.
Arguments s_sigma {V}. Arguments s_eps2 {V}. Arguments s_t0 {V}. Arguments s_tfinal {V}. Arguments s_dt {V}.
Arguments s_max_steps {V}. Arguments s_log_every {V}. Arguments s_save_every {V}. Arguments s_log_file {V}. Arguments s_output {V}.

(** The values of the options for a Cahn-Hilliard run with these settings in the given dimension and
    with the given integrator, without a step size from a CFL number and with the given tolerances on
    the residual; a tolerance of zero is none. *)
Definition asked_with {V} `{N : Num V} (dim : Z) (integrator restart : string) (s : settings V) (rel abs : V) : list (string * value V) :=
  [("dimension", VInt dim); ("equation_type", VString "cahn-hilliard"); ("time_integrator", VString integrator);
    ("initial_condition_file", VString restart);
    ("domain_resolution_x", VInt (s_nx s)); ("domain_resolution_y", VInt (s_ny s)); ("domain_resolution_z", VInt (s_nz s));
    ("domain_x_begin", VDouble (s_xbeg s)); ("domain_x_end", VDouble (s_xend s));
    ("domain_y_begin", VDouble (s_ybeg s)); ("domain_z_begin", VDouble (s_zbeg s));
    ("bc_x", VString (s_bc_x s)); ("bc_y", VString (s_bc_y s)); ("bc_z", VString (s_bc_z s));
    ("kernel_variant", VInt (s_variant s)); ("m", VDouble (s_m s)); ("sigma", VDouble (s_sigma s)); ("eps2", VDouble (s_eps2 s));
    ("initial_time", VDouble (s_t0 s)); ("final_time", VDouble (s_tfinal s)); ("time_step_size", VDouble (s_dt s));
    ("max_time_steps", VUnsigned (s_max_steps s)); ("log_frequency", VInt (s_log_every s)); ("save_every", VInt (s_save_every s));
    ("log_file", VString (s_log_file s)); ("solution_output_file", VString (s_output s)); ("use_cfl_time_step", VBool false);
    ("converged_rel_tol", VDouble rel); ("converged_abs_tol", VDouble abs)]%string.
Definition asks_with {V} `{N : Num V} (m : members V) (dim : Z) (integrator restart : string) (s : settings V) (rel abs : V) : Prop :=
  given m (asked_with dim integrator restart s rel abs).

(** Without tolerances, so without an early end. *)
Definition asked {V} `{N : Num V} (dim : Z) (integrator restart : string) (s : settings V) : list (string * value V) :=
  asked_with dim integrator restart s (nint 0) (nint 0).
Definition asks {V} `{N : Num V} (m : members V) (dim : Z) (integrator restart : string) (s : settings V) : Prop :=
  given m (asked dim integrator restart s).

(** The grid of these settings: the cells are cubes as long as the numbers of cells in y and z are
    multiples of that in x; the integer quotient is rounded down otherwise. *)
Definition grid_of {V} `{N : Num V} (s : settings V) (bx by_ bz : bctype) : domain V :=
  let side n b := nadd (nmul (nint (n / s_nx s)) (nsub (s_xend s) (s_xbeg s))) b in
  {| nx := s_nx s; ny := s_ny s; nz := s_nz s; xbeg := s_xbeg s; xend := s_xend s;
     ybeg := s_ybeg s; yend := side (s_ny s) (s_ybeg s); zbeg := s_zbeg s; zend := side (s_nz s) (s_zbeg s);
     xbc := bx; ybc := by_; zbc := bz; nhalo := 2 |}.

(** Where solution files go. *)
Definition base_of {V} (s : settings V) : string := if String.eqb (s_output s) "" then s_log_file s else s_output s.

(** Elements number 0, n, 2n, ... of a list; none if n = 0. *)
Definition every {A} (n : Z) (l : list A) : list A :=
  if n =? 0 then [] else map snd (filter (fun p => Z.of_nat (fst p) mod n =? 0) (combine (seq 0 (length l)) l)).

(** The document is the solution file of a run on the grid of dom, with the given number of steps,
    time and step size, and the values u. *)
Definition is_file3 {V} `{N : Num V} (pl : platform V) (dom : domain V) (iter : Z) (time dt : V) (u : Z -> Z -> Z -> V)
    (doc : list xml) : Prop :=
  exists d c, make3 dom = Ok d /\ holds_inside3 dom c u /\
    write3 (pl_show pl) (pl_show6 pl) {| fs_iter := iter; fs_time := time; fs_dt := dt |} d c = Ok doc.
Definition is_file2 {V} `{N : Num V} (pl : platform V) (dom : domain V) (iter : Z) (time dt : V) (u : Z -> Z -> V)
    (doc : list xml) : Prop :=
  exists d c, make2 dom = Ok d /\ holds_inside2 dom c u /\
    write2 (pl_show pl) (pl_show6 pl) {| fs_iter := iter; fs_time := time; fs_dt := dt |} d c = Ok doc.

(** One step of the third-order strong-stability-preserving method for u' = F(u), in the form of Shu and
    Osher. *)
Definition ssp3_3 (F : (Z -> Z -> Z -> R) -> Z -> Z -> Z -> R) (dt : R) (u : Z -> Z -> Z -> R) : Z -> Z -> Z -> R :=
  let u1 := fun i j k => (u i j k + dt * F u i j k)%R in
  let u2 := fun i j k => (3 / 4 * u i j k + 1 / 4 * (u1 i j k + dt * F u1 i j k))%R in
  fun i j k => (1 / 3 * u i j k + 2 / 3 * (u2 i j k + dt * F u2 i j k))%R.
Definition ssp3_2 (F : (Z -> Z -> R) -> Z -> Z -> R) (dt : R) (u : Z -> Z -> R) : Z -> Z -> R :=
  let u1 := fun i j => (u i j + dt * F u i j)%R in
  let u2 := fun i j => (3 / 4 * u i j + 1 / 4 * (u1 i j + dt * F u1 i j))%R in
  fun i j => (1 / 3 * u i j + 2 / 3 * (u2 i j + dt * F u2 i j))%R.

(** Its increment per unit of time. *)
Definition ssp3_rate3 (F : (Z -> Z -> Z -> R) -> Z -> Z -> Z -> R) (dt : R) (u : Z -> Z -> Z -> R) : Z -> Z -> Z -> R :=
  let u1 := fun i j k => (u i j k + dt * F u i j k)%R in
  let u2 := fun i j k => (3 / 4 * u i j k + 1 / 4 * (u1 i j k + dt * F u1 i j k))%R in
  fun i j k => (1 / 6 * F u i j k + 1 / 6 * F u1 i j k + 2 / 3 * F u2 i j k)%R.
Definition ssp3_rate2 (F : (Z -> Z -> R) -> Z -> Z -> R) (dt : R) (u : Z -> Z -> R) : Z -> Z -> R :=
  let u1 := fun i j => (u i j + dt * F u i j)%R in
  let u2 := fun i j => (3 / 4 * u i j + 1 / 4 * (u1 i j + dt * F u1 i j))%R in
  fun i j => (1 / 6 * F u i j + 1 / 6 * F u1 i j + 2 / 3 * F u2 i j)%R.

(** The random initial field: the mean value m and, in every cell, the next random number minus the average of all. *)
Definition random3 (dom : domain R) (draw : nat -> R) (m : R) : Z -> Z -> Z -> R :=
  let r i j k := draw (Z.to_nat ((i * ny dom + j) * nz dom + k)) in
  fun i j k => (m + (r i j k - mean3 dom r))%R.
Definition random2 (dom : domain R) (draw : nat -> R) (m : R) : Z -> Z -> R :=
  let r i j := draw (Z.to_nat (i * nx dom + j)) in
  fun i j => (m + (r i j - mean2 dom r))%R.

(** One step of the method of Bogacki and Shampine, from its increment per unit of time. *)
Definition bs_rate3 (F : (Z -> Z -> Z -> R) -> Z -> Z -> Z -> R) (dt : R) (u : Z -> Z -> Z -> R) : Z -> Z -> Z -> R :=
  let k2 := F (fun i j k => (u i j k + dt / 2 * F u i j k)%R) in
  let k3 := F (fun i j k => (u i j k + 3 / 4 * dt * k2 i j k)%R) in
  fun i j k => (2 / 9 * F u i j k + 1 / 3 * k2 i j k + 4 / 9 * k3 i j k)%R.
Definition bs_rate2 (F : (Z -> Z -> R) -> Z -> Z -> R) (dt : R) (u : Z -> Z -> R) : Z -> Z -> R :=
  let k2 := F (fun i j => (u i j + dt / 2 * F u i j)%R) in
  let k3 := F (fun i j => (u i j + 3 / 4 * dt * k2 i j)%R) in
  fun i j => (2 / 9 * F u i j + 1 / 3 * k2 i j + 4 / 9 * k3 i j)%R.
Definition bs_step3 (F : (Z -> Z -> Z -> R) -> Z -> Z -> Z -> R) (dt : R) (u : Z -> Z -> Z -> R) : Z -> Z -> Z -> R :=
  fun i j k => (u i j k + dt * bs_rate3 F dt u i j k)%R.
Definition bs_step2 (F : (Z -> Z -> R) -> Z -> Z -> R) (dt : R) (u : Z -> Z -> R) : Z -> Z -> R :=
  fun i j => (u i j + dt * bs_rate2 F dt u i j)%R.

(** The right-hand side of the Cahn-Hilliard equations on the grid of dom, with its boundary conditions. *)
Definition ch_rate3 (dom : domain R) (s : settings R) (u : Z -> Z -> Z -> R) : Z -> Z -> Z -> R :=
  CH3 (spacing dom) (s_m s) (s_sigma s) (s_eps2 s) (extend3 dom u).
Definition ch_rate2 (dom : domain R) (s : settings R) (u : Z -> Z -> R) : Z -> Z -> R :=
  CH2 (spacing dom) (s_m s) (s_sigma s) (s_eps2 s) (periodic2 dom u).

(** Step sizes that an adaptive method may propose after dt: dt again, or one within the limits. *)
Definition within (lo hi dt p : R) : Prop := p = dt \/ (lo <= p /\ (p <= hi \/ p = lo))%R.

(** The settings describe a run of this size. *)
Definition sound {V} (s : settings V) (fuel : nat) : Prop :=
  2 <= s_nx s /\ 2 <= s_ny s <= 2147483647 /\ 2 <= s_nz s <= 2147483647 /\ 0 <= s_variant s <= 2 /\
  0 < s_max_steps s <= 2147483647 /\ s_log_every s <> 0 /\ s_max_steps s <= Z.of_nat fuel.

(** Names of solution files: the step number is padded with zeros to the width of the step limit,
    and in 3D at least to four digits. *)
Definition file_name3 {V} (s : settings V) (base : string) (i : Z) : string := vts_name3 base (Z.max (ndigits (s_max_steps s)) 4) i.
Definition file_name2 {V} (s : settings V) (base : string) (i : Z) : string := vts_name2 base (ndigits (s_max_steps s)) i.

(** The solution file for a reached state. *)
Definition saved3 (pl : platform R) (s : settings R) (dom : domain R) (base : string) (x : Z * R * R * (Z -> Z -> Z -> R))
    (f : string * list xml) : Prop :=
  let '(i, t, dt, u) := x in fst f = file_name3 s base i /\ is_file3 pl dom i t dt u (snd f).
Definition saved2 (pl : platform R) (s : settings R) (dom : domain R) (base : string) (x : Z * R * R * (Z -> Z -> R))
    (f : string * list xml) : Prop :=
  let '(i, t, dt, u) := x in fst f = file_name2 s base i /\ is_file2 pl dom i t dt u (snd f).

(** The three groups of a log row: status, residuals and solution monitors, for a reached state u with
    increment v per unit of time; [names] are the entries that the integrator adds to the status; [sofar] are the states logged so far, including this one. *)
Definition logged3 (dom : domain R) (names : list string) (sofar : list (Z * R * R * ((Z -> Z -> Z -> R) * (Z -> Z -> Z -> R))))
    (x : Z * R * R * ((Z -> Z -> Z -> R) * (Z -> Z -> Z -> R)))
    (row : list (string * R) * list (string * R) * list (string * R)) : Prop :=
  let '(i, t, dt, (u, v)) := x in let '(status, residuals, monitors) := row in
  (exists more, map fst more = names /\ status = [("iter", IZR i); ("time", t); ("dt", dt)]%string ++ more) /\
  (exists a rel top, residuals = [("res_c", rms3 dom v); ("abs_res", a); ("rel_res", rel)]%string /\
     greatest_of (map (fun y => rms3 dom (snd (snd y))) sofar) top /\
     (top <> 0%R -> a = rms3 dom v /\ rel = (rms3 dom v / top)%R) /\ (top = 0%R -> a = 1%R /\ rel = 1%R)) /\
  (exists a b g, monitors = [("min_c", a); ("max_c", b); ("grad_c_mag", g)]%string /\
     ((forall i j k, inside3 dom i j k -> finite_double (u i j k)) -> least3 dom u a /\
       ((exists i j k, inside3 dom i j k /\ (DBL_MIN <= u i j k)%R) -> greatest3 dom u b))).
Definition logged2 (dom : domain R) (names : list string) (sofar : list (Z * R * R * ((Z -> Z -> R) * (Z -> Z -> R))))
    (x : Z * R * R * ((Z -> Z -> R) * (Z -> Z -> R)))
    (row : list (string * R) * list (string * R) * list (string * R)) : Prop :=
  let '(i, t, dt, (u, v)) := x in let '(status, residuals, monitors) := row in
  (exists more, map fst more = names /\ status = [("iter", IZR i); ("time", t); ("dt", dt)]%string ++ more) /\
  (exists a rel top, residuals = [("res_c", rms2 dom v); ("abs_res", a); ("rel_res", rel)]%string /\
     greatest_of (map (fun y => rms2 dom (snd (snd y))) sofar) top /\
     (top <> 0%R -> a = rms2 dom v /\ rel = (rms2 dom v / top)%R) /\ (top = 0%R -> a = 1%R /\ rel = 1%R)) /\
  (exists a b g, monitors = [("min_c", a); ("max_c", b); ("grad_c_mag", g)]%string /\
     ((forall i j, inside2 dom i j -> finite_double (u i j)) -> least2 dom u a /\
       ((exists i j, inside2 dom i j /\ (DBL_MIN <= u i j)%R) -> greatest2 dom u b))).

(** What the program asks of the logger: the file and some messages first, then for every row
    its three groups and an update. *)
Definition log_requests {V} (file : string) (messages : list string) (rows : list (list (string * V) * list (string * V) * list (string * V))) : list (call V) :=
  InitFile file LTrace :: map (Message LInfo) messages ++
  flat_map (fun r => let '(status, residuals, monitors) := r in [Monitors status residuals monitors; Update]) rows.

(** The platform adds up, and takes minima and maxima, in some order, and its limits are those of doubles. *)
Definition reduces (pl : platform R) : Prop :=
  sum_reducer (red_sum (pl_red pl)) /\ proper_reducers (pl_red pl) /\ pl_hi pl = DBL_MAX /\ pl_lo pl = DBL_MIN.

(** What is left of a run from the step number, time, step size and field given: the steps it made, the
    solution files it wrote, and what it asked of the logger, beginning with the messages given; rows have the columns [names] besides the usual ones.  One step of size dt leads from u to [next dt u] with the increment [rate dt u] per
    unit of time.  Solution files are written for every save_every-th step, then a last one with the
    step size the run ended with; rows are logged for every log_frequency-th step. *)
Definition story3 (pl : platform R) (s : settings R) (dom : domain R) (names messages : list string) (start : Z * R * R) (proposes : R -> R -> Prop)
    (next rate : R -> (Z -> Z -> Z -> R) -> Z -> Z -> Z -> R) (u0 : Z -> Z -> Z -> R) (w : pworld R) : Prop :=
  let '(i0, t0, dt0) := start in
  exists steps e files fin,
    marches proposes (s_tfinal s) (s_max_steps s) i0 t0 dt0 false steps e /\
    Forall2 (saved3 pl s dom (base_of s)) (reached (fun _ => next) i0 u0 steps) files /\
    w_files w = every (s_save_every s) files ++ [fin] /\
    (exists before i t dt u, reached (fun _ => next) i0 u0 steps = before ++ [(i, t, dt, u)] /\
       saved3 pl s dom (base_of s ++ "_final")%string (i, t, e, u) fin) /\
    (reduces pl ->
     let rated := reached (fun _ dt x => (next dt (fst x), rate dt (fst x))) i0 (u0, u0) steps in
     exists rows, perform_all (pl_showe pl) (pl_table pl) (pl_banner pl) new_logger (log_requests (s_log_file s) messages rows)
         = Next (w_logger w) (w_out w) /\
       length rows = length (every (s_log_every s) rated) /\
       forall n x row, nth_error (every (s_log_every s) rated) n = Some x -> nth_error rows n = Some row ->
         logged3 dom names (firstn (S n) (every (s_log_every s) rated)) x row).
Definition story2 (pl : platform R) (s : settings R) (dom : domain R) (names messages : list string) (start : Z * R * R) (proposes : R -> R -> Prop)
    (next rate : R -> (Z -> Z -> R) -> Z -> Z -> R) (u0 : Z -> Z -> R) (w : pworld R) : Prop :=
  let '(i0, t0, dt0) := start in
  exists steps e files fin,
    marches proposes (s_tfinal s) (s_max_steps s) i0 t0 dt0 false steps e /\
    Forall2 (saved2 pl s dom (base_of s)) (reached (fun _ => next) i0 u0 steps) files /\
    w_files w = every (s_save_every s) files ++ [fin] /\
    (exists before i t dt u, reached (fun _ => next) i0 u0 steps = before ++ [(i, t, dt, u)] /\
       saved2 pl s dom (base_of s ++ "_final")%string (i, t, e, u) fin) /\
    (reduces pl ->
     let rated := reached (fun _ dt x => (next dt (fst x), rate dt (fst x))) i0 (u0, u0) steps in
     exists rows, perform_all (pl_showe pl) (pl_table pl) (pl_banner pl) new_logger (log_requests (s_log_file s) messages rows)
         = Next (w_logger w) (w_out w) /\
       length rows = length (every (s_log_every s) rated) /\
       forall n x row, nth_error (every (s_log_every s) rated) n = Some x -> nth_error rows n = Some row ->
         logged2 dom names (firstn (S n) (every (s_log_every s) rated)) x row).

(** The tolerances: the relative one compares the residual with the greatest so far (both zero: with 1). *)
Definition rel_met (rel size top : R) : Prop := rel <> 0%R /\ ((top <> 0%R /\ (size / top < rel)%R) \/ (top = 0%R /\ (1 < rel)%R)).
Definition abs_met (abs size : R) : Prop := abs <> 0%R /\ (size < abs)%R.
(** Among the steps l of a run, of which every n-th is logged: the root mean square of the increment per
    unit of time of the last step logged is below the absolute tolerance, or below the relative one as a
    fraction of the greatest logged so far, 1 if that is zero. *)
Definition settled3 (dom : domain R) (n : Z) (rel abs : R) (l : list (Z * R * R * ((Z -> Z -> Z -> R) * (Z -> Z -> Z -> R)))) : Prop :=
  let size x := rms3 dom (snd (snd x)) in
  exists before x top, every n l = before ++ [x] /\ greatest_of (map size (every n l)) top /\ (rel_met rel (size x) top \/ abs_met abs (size x)).
Definition settled2 (dom : domain R) (n : Z) (rel abs : R) (l : list (Z * R * R * ((Z -> Z -> R) * (Z -> Z -> R)))) : Prop :=
  let size x := rms2 dom (snd (snd x)) in
  exists before x top, every n l = before ++ [x] /\ greatest_of (map size (every n l)) top /\ (rel_met rel (size x) top \/ abs_met abs (size x)).

(** The messages with which a run ends whose steps so far are l: one for each tolerance met. *)
Definition says (rel abs : bool) : list string :=
  (if rel then ["Exiting due to converged_rel_tol criterion."%string] else []) ++ (if abs then ["Exiting due to converged_abs_tol criterion."%string] else []).
Definition leaves3 (dom : domain R) (n : Z) (rel abs : R) (l : list (Z * R * R * ((Z -> Z -> Z -> R) * (Z -> Z -> Z -> R)))) (goodbye : list string) : Prop :=
  let size x := rms3 dom (snd (snd x)) in
  exists before x top (r a : bool), every n l = before ++ [x] /\ greatest_of (map size (every n l)) top /\
    (r = true <-> rel_met rel (size x) top) /\ (a = true <-> abs_met abs (size x)) /\ goodbye = says r a.
Definition leaves2 (dom : domain R) (n : Z) (rel abs : R) (l : list (Z * R * R * ((Z -> Z -> R) * (Z -> Z -> R)))) (goodbye : list string) : Prop :=
  let size x := rms2 dom (snd (snd x)) in
  exists before x top (r a : bool), every n l = before ++ [x] /\ greatest_of (map size (every n l)) top /\
    (r = true <-> rel_met rel (size x) top) /\ (a = true <-> abs_met abs (size x)) /\ goodbye = says r a.
(** The run ended at its final time without a message, or in the test after a step. *)
Definition ended {A} (s : settings R) (limit : Z) (l : list (Z * R * R * A)) (goodbye : list string) (tested : Prop) : Prop :=
  exists before i t dt x, l = before ++ [(i, t, dt, x)] /\
    ((before <> [] /\ t = s_tfinal s /\ limit = s_max_steps s /\ goodbye = []) \/ ((before = [] \/ (t < s_tfinal s)%R) /\ tested)).

(** The same with tolerances: the run may end early.  It goes on as long as the residual is not within the
    tolerances, and ends before its step limit and its final time only when it is. *)
Definition story3_with (pl : platform R) (s : settings R) (rel abs : R) (dom : domain R) (names messages : list string) (start : Z * R * R) (proposes : R -> R -> Prop)
    (next rate : R -> (Z -> Z -> Z -> R) -> Z -> Z -> Z -> R) (u0 : Z -> Z -> Z -> R) (w : pworld R) : Prop :=
  let '(i0, t0, dt0) := start in
  exists steps e files fin limit,
    marches proposes (s_tfinal s) limit i0 t0 dt0 false steps e /\
    (limit = s_max_steps s \/ (limit < s_max_steps s /\ limit = i0 + Z.of_nat (length steps))) /\
    Forall2 (saved3 pl s dom (base_of s)) (reached (fun _ => next) i0 u0 steps) files /\
    w_files w = every (s_save_every s) files ++ [fin] /\
    (exists before i t dt u, reached (fun _ => next) i0 u0 steps = before ++ [(i, t, dt, u)] /\
       saved3 pl s dom (base_of s ++ "_final")%string (i, t, e, u) fin) /\
    (reduces pl ->
     let rated := reached (fun _ dt x => (next dt (fst x), rate dt (fst x))) i0 (u0, u0) steps in
     exists rows goodbye, perform_all (pl_showe pl) (pl_table pl) (pl_banner pl) new_logger
           (log_requests (s_log_file s) messages rows ++ map (Message LInfo) goodbye) = Next (w_logger w) (w_out w) /\
       length rows = length (every (s_log_every s) rated) /\
       (forall n x row, nth_error (every (s_log_every s) rated) n = Some x -> nth_error rows n = Some row ->
         logged3 dom names (firstn (S n) (every (s_log_every s) rated)) x row) /\
       ended s limit rated goodbye (leaves3 dom (s_log_every s) rel abs rated goodbye)) /\
    (reduces pl ->
     let rated := reached (fun _ dt x => (next dt (fst x), rate dt (fst x))) i0 (u0, u0) steps in
     (forall n, (0 < n < length steps)%nat -> ~ settled3 dom (s_log_every s) rel abs (firstn n rated)) /\
     (limit < s_max_steps s -> settled3 dom (s_log_every s) rel abs rated)).
Definition story2_with (pl : platform R) (s : settings R) (rel abs : R) (dom : domain R) (names messages : list string) (start : Z * R * R) (proposes : R -> R -> Prop)
    (next rate : R -> (Z -> Z -> R) -> Z -> Z -> R) (u0 : Z -> Z -> R) (w : pworld R) : Prop :=
  let '(i0, t0, dt0) := start in
  exists steps e files fin limit,
    marches proposes (s_tfinal s) limit i0 t0 dt0 false steps e /\
    (limit = s_max_steps s \/ (limit < s_max_steps s /\ limit = i0 + Z.of_nat (length steps))) /\
    Forall2 (saved2 pl s dom (base_of s)) (reached (fun _ => next) i0 u0 steps) files /\
    w_files w = every (s_save_every s) files ++ [fin] /\
    (exists before i t dt u, reached (fun _ => next) i0 u0 steps = before ++ [(i, t, dt, u)] /\
       saved2 pl s dom (base_of s ++ "_final")%string (i, t, e, u) fin) /\
    (reduces pl ->
     let rated := reached (fun _ dt x => (next dt (fst x), rate dt (fst x))) i0 (u0, u0) steps in
     exists rows goodbye, perform_all (pl_showe pl) (pl_table pl) (pl_banner pl) new_logger
           (log_requests (s_log_file s) messages rows ++ map (Message LInfo) goodbye) = Next (w_logger w) (w_out w) /\
       length rows = length (every (s_log_every s) rated) /\
       (forall n x row, nth_error (every (s_log_every s) rated) n = Some x -> nth_error rows n = Some row ->
         logged2 dom names (firstn (S n) (every (s_log_every s) rated)) x row) /\
       ended s limit rated goodbye (leaves2 dom (s_log_every s) rel abs rated goodbye)) /\
    (reduces pl ->
     let rated := reached (fun _ dt x => (next dt (fst x), rate dt (fst x))) i0 (u0, u0) steps in
     (forall n, (0 < n < length steps)%nat -> ~ settled2 dom (s_log_every s) rel abs (firstn n rated)) /\
     (limit < s_max_steps s -> settled2 dom (s_log_every s) rel abs rated)).

(** The settings differ at most in what concerns the log. *)
Definition same_but_log {V} (s s' : settings V) : Prop :=
  s_nx s = s_nx s' /\ s_ny s = s_ny s' /\ s_nz s = s_nz s' /\ s_xbeg s = s_xbeg s' /\ s_xend s = s_xend s' /\
  s_ybeg s = s_ybeg s' /\ s_zbeg s = s_zbeg s' /\ s_bc_x s = s_bc_x s' /\ s_bc_y s = s_bc_y s' /\ s_bc_z s = s_bc_z s' /\
  s_variant s = s_variant s' /\ s_m s = s_m s' /\ s_sigma s = s_sigma s' /\ s_eps2 s = s_eps2 s' /\
  s_t0 s = s_t0 s' /\ s_tfinal s = s_tfinal s' /\ s_dt s = s_dt s' /\ s_max_steps s = s_max_steps s' /\
  s_save_every s = s_save_every s' /\ base_of s = base_of s'.

(** ** Restarts *)

(** The grid of a restarted run: the numbers of cells, the origin and the end in x come from the file,
    written for the grid dom; the kinds of boundary come from the options.  The far ends in y and z are
    not in the file: they stay what they were in memory and are not used. *)
Definition regrid3 {V} (raw dom : domain V) (bx by_ bz : bctype) : domain V :=
  {| nx := nx dom; ny := ny dom; nz := nz dom; xbeg := xbeg dom; xend := xend dom; ybeg := ybeg dom; yend := yend raw;
     zbeg := zbeg dom; zend := zend raw; xbc := bx; ybc := by_; zbc := bz; nhalo := 2 |}.
Definition regrid2 {V} `{N : Num V} (raw dom : domain V) (bx by_ bz : bctype) : domain V :=
  {| nx := nx dom; ny := nx dom; nz := 0; xbeg := xbeg dom; xend := xend dom; ybeg := ybeg dom; yend := yend raw;
     zbeg := nint 0; zend := zend raw; xbc := bx; ybc := by_; zbc := bz; nhalo := 2 |}.

(** The side of a cell. *)
Definition cell_size {V} `{N : Num V} (dom : domain V) : V := ndiv (nsub (xend dom) (xbeg dom)) (nint (nx dom)).

(** Everything a solution file holds can be read back exactly. *)
Definition readable3 {V} `{N : Num V} (pl : platform V) (dom : domain V) (t dt : V) (u : Z -> Z -> Z -> V) : Prop :=
  vertices_print3 (pl_show pl) (pl_read pl) dom (cell_size dom) /\
  (forall i j k, inside3 dom i j k -> prints (pl_show pl) (pl_read pl) (u i j k)) /\
  prints (pl_show6 pl) (pl_read pl) t /\ prints (pl_show6 pl) (pl_read pl) dt.
Definition readable2 {V} `{N : Num V} (pl : platform V) (dom : domain V) (t dt : V) (u : Z -> Z -> V) : Prop :=
  vertices_print2 (pl_show pl) (pl_read pl) dom (cell_size dom) /\
  (forall i j, inside2 dom i j -> prints (pl_show pl) (pl_read pl) (u i j)) /\
  prints (pl_show6 pl) (pl_read pl) t /\ prints (pl_show6 pl) (pl_read pl) dt.

(** The settings describe a run from step i on. *)
Definition sound_from {V} (s : settings V) (i : Z) (fuel : nat) : Prop :=
  0 <= s_variant s <= 2 /\ 0 < s_max_steps s <= 2147483647 /\ s_log_every s <> 0 /\ 0 <= i < 2147483647 /\
  Z.max 1 (s_max_steps s - i) <= Z.of_nat fuel.

(** The settings s' of a restart agree with those of the run s that wrote the file; those of the grid and the
    start, which are read from the file, need not. *)
Definition continues {V} (s s' : settings V) : Prop :=
  s_bc_x s = s_bc_x s' /\ s_bc_y s = s_bc_y s' /\ s_bc_z s = s_bc_z s' /\
  s_variant s = s_variant s' /\ s_m s = s_m s' /\ s_sigma s = s_sigma s' /\ s_eps2 s = s_eps2 s' /\
  s_tfinal s = s_tfinal s' /\ s_max_steps s = s_max_steps s' /\ s_save_every s = s_save_every s' /\ base_of s = base_of s'.
