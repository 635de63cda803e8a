(** What sampling a colour means: the vocabulary of the theorems in P_Sample.v,
    without the code's loops, buffers and float sums. *)
From Verif Require Import Base F32 Blend Queue Mask MaskProofs.
From Coq Require Import Reals.
From Flocq Require Import IEEE754.BinarySingleNaN.
Local Open Scope Z_scope.

(** The sampled area is a soft round brush tip (hardness 1/2, softness 1/2).
    [share x y radius t i j]: how strongly pixel (i, j) of the 64x64 tile [t]
    counts, an integer from 0 to 2^15: the opacity such a dab has there
    ([mask_value], Mask.v, proved to be the dab's profile in P_Mask.v), 0 outside
    the rectangle around the dab. *)
Definition share (trig : trig_oracle) (x y radius : f32) (t : tile) (i j : Z) : Z :=
  let dx := fsub x (f_of_Z (fst t * 64)) in
  let dy := fsub y (f_of_Z (snd t * 64)) in
  match dab_box dx dy radius with
  | Ok (x0, y0, x1, y1) =>
      if (x0 <=? i) && (i <=? x1) && (y0 <=? j) && (j <=? y1) then
        match mask_value trig dx dy radius fhalf fhalf f1 f0 i j with Ok v => v | _ => 0 end
      else 0
  | _ => 0
  end.

(** the 4096 pixels of a tile *)
Definition pixels : list (Z * Z) := flat_map (fun j => map (fun i => (i, j)) (zrange 0 64)) (zrange 0 64).

(** sums over all pixels of all tiles [ts] of a canvas [pix] *)
Definition over_tile (f : Z -> Z -> Z) : Z := fold_right (fun ij n => f (fst ij) (snd ij) + n) 0 pixels.
Definition over_tiles (ts : list tile) (f : tile -> Z) : Z := fold_right (fun t n => f t + n) 0 ts.

Section Sums.
  Variables (share : tile -> Z -> Z -> Z) (pix : tile -> list Z).
  (** total weight, weighted sum of a channel, number of pixels that count *)
  Definition weight (ts : list tile) : Z := over_tiles ts (fun t => over_tile (share t)).
  Definition weighted (c : pixel -> Z) (ts : list tile) : Z :=
    over_tiles ts (fun t => over_tile (fun i j => share t i j * c (pixel_at (pix t) i j))).
  Definition touched (ts : list tile) : Z :=
    over_tiles ts (fun t => over_tile (fun i j => if share t i j =? 0 then 0 else 1)).
  (** every pixel that counts satisfies [P] *)
  Definition everywhere (ts : list tile) (P : pixel -> Prop) : Prop :=
    forall t i j, In t ts -> 0 <= i <= 63 -> 0 <= j <= 63 -> share t i j <> 0 -> P (pixel_at (pix t) i j).
End Sums.

(** the buffers the backend hands out: 64*64*4 numbers of 16 bits *)
Definition sixteen_bit (pix : tile -> list Z) : Prop :=
  forall t, Z.of_nat (length (pix t)) = 64 * 64 * 4 /\ Forall (fun w => 0 <= w <= 65535) (pix t).

(** the tiles that are read: row by row, each row up to the first refusal *)
Fixpoint up_to_refusal (can : tile -> bool) (row : list tile) : list tile :=
  match row with
  | [] => []
  | t :: row => if can t then t :: up_to_refusal can row else []
  end.

(** how far [n] float roundings can move a quotient *)
Definition slack (n : nat) : R := (((1 + / 16777216) / (1 - / 16777216)) ^ n)%R.
