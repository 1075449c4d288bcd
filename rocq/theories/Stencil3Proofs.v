(** 3D stencils: what the Laplacian and biharmonic kernels compute. *)
From Verif Require Import Outcome ZList ZListProofs Num Kernel KernelProofs Gather Loop
  ModelIndex IndexProofs ModelDisc3D SpecGrid Disc3DProofs.

Section Stencil3.
  Context {V : Type} `{N : Num V}.
  Implicit Types (d : disc3 V).

  (** The stencils as expressions in the field, in the code's order of operations. *)
  Definition lap_expr3 (dx : V) (u : Z -> Z -> Z -> V) (i j k : Z) : V :=
    ((u (i - 1)%Z j k + u (i + 1)%Z j k + u i (j - 1)%Z k + u i (j + 1)%Z k + u i j (k - 1)%Z + u i j (k + 1)%Z
      - nint 6 * u i j k) / (dx * dx))%num.

  Definition bih_sum3 (u : Z -> Z -> Z -> V) (i j k : Z) : V :=
    (nint 42 * u i j k
     - nint 12 * (u (i + 1)%Z j k + u i (j + 1)%Z k + u i j (k + 1)%Z + u (i - 1)%Z j k + u i (j - 1)%Z k + u i j (k - 1)%Z)
     + u (i + 2)%Z j k + u i (j + 2)%Z k + u i j (k + 2)%Z + u (i - 2)%Z j k + u i (j - 2)%Z k + u i j (k - 2)%Z
     + nint 2 * (u (i - 1)%Z (j - 1)%Z k + u (i - 1)%Z (j + 1)%Z k + u (i + 1)%Z (j - 1)%Z k + u (i + 1)%Z (j + 1)%Z k
                 + u (i - 1)%Z j (k - 1)%Z + u (i + 1)%Z j (k - 1)%Z + u i (j - 1)%Z (k - 1)%Z + u i (j + 1)%Z (k - 1)%Z
                 + u (i - 1)%Z j (k + 1)%Z + u (i + 1)%Z j (k + 1)%Z + u i (j - 1)%Z (k + 1)%Z + u i (j + 1)%Z (k + 1)%Z))%num.

  Definition bih_expr3 (dx : V) (u : Z -> Z -> Z -> V) (i j k : Z) : V :=
    (bih_sum3 u i j k / (dx * dx * dx * dx))%num.

  Lemma laplacian3_full d s o u :
    wf3 d -> 1 <= nhalo (d3_domain d) -> holds3 (d3_domain d) s u -> zlen o = cells3 (d3_domain d) ->
    exists o', laplacian3 d s o = Ok (s, o') /\
      holds_inside3 (d3_domain d) o' (lap_expr3 (d3_dx d) u) /\
      same_halo3 (d3_domain d) o o' /\
      schedule_independent (map (laplacian_body3 d) (zrange 0 (zlen (d3_interior d)))) [s; o] [s; o'].
  Proof.
    intros W Hh HS HL. unfold laplacian3, laplacian_body3.
    apply interior_kernel2; auto.
    - intros i j k (Hi & Hj & Hk).
      prove_uses ltac:(first [ split; [reflexivity | rewrite ix3_slot by auto; first
        [ rewrite (proj1 HS); apply slot3_range; unfold padded3; lia | reflexivity ] ] ]).
    - intros i j k (Hi & Hj & Hk). rewrite !ix3_slot by auto.
      prove_stores ltac:(apply holds3_read; [exact HS|unfold padded3; lia])
                   ltac:(apply inb_1; rewrite HL; apply slot3_range; unfold padded3; lia).
  Qed.

  Lemma biharmonic3_full d s o u :
    wf3 d -> 2 <= nhalo (d3_domain d) -> holds3 (d3_domain d) s u -> zlen o = cells3 (d3_domain d) ->
    exists o', biharmonic3 d s o = Ok (s, o') /\
      holds_inside3 (d3_domain d) o' (bih_expr3 (d3_dx d) u) /\
      same_halo3 (d3_domain d) o o' /\
      schedule_independent (map (biharmonic_body3 d) (zrange 0 (zlen (d3_interior d)))) [s; o] [s; o'].
  Proof.
    intros W Hh HS HL. unfold biharmonic3, biharmonic_body3.
    apply interior_kernel2; auto.
    - intros i j k (Hi & Hj & Hk).
      prove_uses ltac:(first [ split; [reflexivity | rewrite ix3_slot by auto; first
        [ rewrite (proj1 HS); apply slot3_range; unfold padded3; lia | reflexivity ] ] ]).
    - intros i j k (Hi & Hj & Hk). rewrite !ix3_slot by auto.
      prove_stores ltac:(apply holds3_read; [exact HS|unfold padded3; lia])
                   ltac:(apply inb_1; rewrite HL; apply slot3_range; unfold padded3; lia).
  Qed.
End Stencil3.
