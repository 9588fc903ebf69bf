(** The drawing operations of the renderer on real tiles. *)
From Coq Require Import String.
From Verif Require Import Base MBlend MPorter MRender.
Close Scope string_scope.

(** A tile of an image.NRGBA: its pixels row by row; a tile of a mask: its alphas. *)
Definition tile : Type := list px.
Definition mtile : Type := list Z.

Fixpoint map2 {A B C} (f : A -> B -> C) (l : list A) (l' : list B) : list C :=
  match l, l' with
  | x :: l, y :: l' => f x y :: map2 f l l'
  | _, _ => []
  end.
Definition black : px := Px 0 0 0 0.
(** The operations of the generated loops on one pixel do not panic for bytes (C41); if
    they do, the pixel is kept. *)
Definition orElse (o : option px) (d : px) : px := match o with Some p => p | None => d end.

(** A new buffer of [n] pixels *)
Definition zeroPx (n : nat) : tile := repeat black n.
(** blend.Copy.Draw between two image.NRGBA. It does not depend on the destination (see
    [copy_dest] in PRenderPx). *)
Definition copyPx (t : tile) : tile := map (fun s => orElse (pdB machine Copy true true 65535 s black) black) t.
(** blend.Clear.Draw; source image.Transparent, a Uniform *)
Definition clearPx (n : nat) (t : tile) : tile := zeroPx n.
(** blend.DestIn.Draw and blend.DestOut.Draw with an image.Alpha *)
Definition destInMPx (m : mtile) (t : tile) : tile := map2 (fun s d => orElse (pdA machine DestIn true 65535 s d) d) m t.
Definition destOutMPx (m : mtile) (t : tile) : tile := map2 (fun s d => orElse (pdA machine DestOut true 65535 s d) d) m t.
(** blend.DestIn.Draw and blend.DestOver.Draw of image.NRGBA *)
Definition destInPx (s t : tile) : tile := map2 (fun s d => orElse (pdB machine DestIn true true 65535 s d) d) s t.
Definition destOverPx (s t : tile) : tile := map2 (fun s d => orElse (pdB machine DestOver true true 65535 s d) d) s t.
(** draw.go:46-53 *)
Definition removeAlphaPx (t : tile) : tile := map (fun p => Px (pr p) (pg p) (pb p) 255) t.

(** draw.go:13-40 with the constants of blendmode.go:10-37 *)
Definition blendModes : list (bytes * mode) :=
  map (fun '(k, m) => (str k, m))
  [("norm"%string, Normal); ("dark"%string, Darken); ("mul "%string, Multiply); ("idiv"%string, ColorBurn);
   ("lbrn"%string, LinearBurn); ("dkCl"%string, DarkerColor); ("lite"%string, Lighten); ("scrn"%string, Screen);
   ("div "%string, ColorDodge); ("lddg"%string, Add); ("lgCl"%string, LighterColor); ("over"%string, Overlay);
   ("sLit"%string, SoftLight); ("hLit"%string, HardLight); ("lLit"%string, LinearLight); ("vLit"%string, VividLight);
   ("pLit"%string, PinLight); ("hMix"%string, HardMix); ("diff"%string, Difference); ("smud"%string, Exclusion);
   ("fsub"%string, Subtract); ("fdiv"%string, Divide); ("hue "%string, Hue); ("sat "%string, Saturation);
   ("colr"%string, Color); ("lum "%string, Luminosity)].
(** draw.go:42-44: DrawMask with a Uniform mask of uint8(opacity) *)
Definition blendPx (m : bytes) : option (Z -> tile -> tile -> tile) :=
  match m_get list_eqb blendModes m with
  | Some md => Some (fun op s d => map2 (fun s d => orElse (blend8 machine md (op mod 256) s d) d) s d)
  | None => None
  end.

Definition renderPx (n : nat) := renderTile (zeroPx n) copyPx blendPx destInMPx destOutMPx destInPx destOverPx (clearPx n) removeAlphaPx.
