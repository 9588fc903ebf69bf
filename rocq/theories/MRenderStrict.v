(** The drawing operations of [MRenderPx] with panics: if an operation panics for one
    pixel, or if two tiles differ in size (an index out of range), the tile is [None]. *)
From Verif Require Import Base MBlend MPorter MRender MRenderPx.

Definition stile : Type := option tile.
Fixpoint traverse {A B} (f : A -> option B) (l : list A) : option (list B) :=
  match l with
  | [] => Some []
  | x :: l => match f x, traverse f l with Some y, Some r => Some (y :: r) | _, _ => None end
  end.
Fixpoint traverse2 {A B C} (f : A -> B -> option C) (l : list A) (l' : list B) : option (list C) :=
  match l, l' with
  | [], [] => Some []
  | x :: l, y :: l' => match f x y, traverse2 f l l' with Some z, Some r => Some (z :: r) | _, _ => None end
  | _, _ => None
  end.
Definition obind {A B} (o : option A) (f : A -> option B) : option B := match o with Some x => f x | None => None end.

(** As in [MRenderPx] *)
Definition zeroS (n : nat) : stile := Some (zeroPx n).
Definition copyS (t : stile) : stile := obind t (traverse (fun s => pdB machine Copy true true 65535 s black)).
Definition clearS (n : nat) (t : stile) : stile := obind t (fun _ => Some (zeroPx n)).
Definition destInMS (m : mtile) (t : stile) : stile := obind t (traverse2 (fun s d => pdA machine DestIn true 65535 s d) m).
Definition destOutMS (m : mtile) (t : stile) : stile := obind t (traverse2 (fun s d => pdA machine DestOut true 65535 s d) m).
Definition destInS (s t : stile) : stile := obind s (fun s => obind t (traverse2 (fun s d => pdB machine DestIn true true 65535 s d) s)).
Definition destOverS (s t : stile) : stile := obind s (fun s => obind t (traverse2 (fun s d => pdB machine DestOver true true 65535 s d) s)).
Definition removeAlphaS (t : stile) : stile := option_map removeAlphaPx t.
Definition blendS (m : bytes) : option (Z -> stile -> stile -> stile) :=
  match m_get list_eqb blendModes m with
  | Some md => Some (fun op s d => obind s (fun s => obind d (traverse2 (fun s d => blend8 machine md (op mod 256) s d) s)))
  | None => None
  end.
Definition renderS (n : nat) (canvas : Z -> option tile) (mask : Z -> option mtile) :=
  renderTile (zeroS n) copyS blendS destInMS destOutMS destInS destOverS (clearS n) removeAlphaS (fun s => option_map Some (canvas s)) mask.
