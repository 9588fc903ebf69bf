(** Conditions for renders between a change and its announcement. *)
From Verif Require Import Base MRect MRender SRender SRenderAll.

(** No pass-through layer has become a layer of another mode that has pass-through layers
    in it or clipped to it. *)
Definition okSwitch (l l' : layer) : Prop :=
  forall p t t', layerAt l p = Some t -> layerAt l' p = Some t' -> isPT (latt t) = true -> isPT (latt t') = false ->
    (forall k, In k (lkids t') -> isPT (latt k) = false) /\ (forall c, In c (lgroup t') -> isPT (latt c) = false).

Section firm.
  Context {img msk : Type}.
  Variable zero : img.
  Variable copyT : img -> img.
  Variable blendOf : bytes -> option (Z -> img -> img -> img).
  Variable destInM destOutM : msk -> img -> img.
  Variable destInT destOverT : img -> img -> img.
  Variable clearT removeAlpha : img -> img.
  Variable canvas : point -> Z -> option img.
  Variable mask : point -> Z -> option msk.
  (** At no tile the buffers suffer from being copied: those of the whole drawing, and those
      of every visible layer that is not pass-through when it is drawn alone (also
      inside of hidden folders). *)
  Definition okFirm (root : layer) : Prop :=
    okDraw zero copyT blendOf destInM destOutM destInT destOverT clearT removeAlpha canvas mask root /\
    forall q p t, layerAt root p = Some t -> isPT (latt t) = false ->
      stable zero copyT blendOf destInM destOutM destInT destOverT clearT removeAlpha (canvas q) (mask q) t zero 255.
End firm.
