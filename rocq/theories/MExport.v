(** Model of psdexporter/main.go, which writes every layer with an image to a file, and of the
    names of blend modes (blendmode.go). *)
From Coq Require Import String Decimal DecimalN.
From Verif Require Import Base MRect MRender MPicker MConfig MReader MLayer.
Close Scope string_scope.
Open Scope list_scope.
Open Scope Z_scope.

(** main.go:43: the options of Decode *)
Definition exportOptions : options := Opts false true (fun _ => false).

(** fmt.Sprintf with the verb %03d for an index of a slice *)
Fixpoint digitsOf (u : Decimal.uint) : bytes :=
  match u with
  | Decimal.Nil => []
  | Decimal.D0 u => 48 :: digitsOf u | Decimal.D1 u => 49 :: digitsOf u | Decimal.D2 u => 50 :: digitsOf u
  | Decimal.D3 u => 51 :: digitsOf u | Decimal.D4 u => 52 :: digitsOf u | Decimal.D5 u => 53 :: digitsOf u
  | Decimal.D6 u => 54 :: digitsOf u | Decimal.D7 u => 55 :: digitsOf u | Decimal.D8 u => 56 :: digitsOf u
  | Decimal.D9 u => 57 :: digitsOf u
  end.
Definition sprint03 (i : N) : bytes := let d := digitsOf (N.to_uint i) in repeat 48 (3 - List.length d)%nat ++ d.

(** What png.Encode does with an image; a nil image is [None]. *)
Inductive result := Done | Failed | Panicked.
(** A file made by os.Create: the line printed for it names [e_label] and [e_file] (main.go:24); [e_result] is that
    of png.Encode into it. *)
Record entry := Entry { e_label : bytes; e_file : bytes; e_image : option picker; e_result : result }.

Section export.
  (** Does os.Create succeed for the name? The outcome of png.Encode for the image *)
  Variable creates : bytes -> bool.
  Variable encode : option picker -> result.

  (** main.go:22-30: the image of one layer. Printing to the console is taken to succeed. If os.Create
      fails, there is no file. *)
  Definition exportImage (filename layerName : bytes) (r : lrec) : list entry * result :=
    (* layer.go:53-55 HasImage *)
    if l_sdtype r =? 0 then
      let name := filename ++ str ".png" in
      if creates name then let e := encode (l_picker r) in ([Entry layerName name (l_picker r) e], e)
      else ([], Failed)
    else ([], Done).
  (** main.go:11-31: first the children, then the layer itself; the first error ends the export *)
  Fixpoint processLayer (filename layerName : bytes) (l : layer) : list entry * result :=
    match l with
    | Layer r ls =>
        let loop := fix loop (i : N) (ls : list layer) : list entry * result :=
          match ls with
          | [] => ([], Done)
          | ll :: ls =>
              match processLayer (filename ++ str "_" ++ sprint03 i) (layerName ++ str "/" ++ l_name (lay_rec ll)) ll with
              | (es, Done) => let (es', o) := loop (N.succ i) ls in (es ++ es', o)
              | (es, o) => (es, o)
              end
          end in
        match loop 0%N ls with
        | (es, Done) => let (es', o) := exportImage filename layerName r in (es ++ es', o)
        | (es, o) => (es, o)
        end
    end.
  (** main.go:47-51: the layers of the file; an error panics *)
  Fixpoint exportFrom (i : N) (ls : list layer) : list entry * result :=
    match ls with
    | [] => ([], Done)
    | l :: ls =>
        match processLayer (sprint03 i) (l_name (lay_rec l)) l with
        | (es, Done) => let (es', o) := exportFrom (N.succ i) ls in (es ++ es', o)
        | (es, _) => (es, Panicked)
        end
    end.
  Definition export (ls : list layer) : list entry * result := exportFrom 0 ls.
End export.

(** blendmode.go:43-104: [BlendMode.String]; blendmode.go:9-38: the constants *)
Definition modeNames : list (bytes * bytes) :=
  map (fun '(k, n) => (str k, str n))
  [("pass", "pass-through"); ("norm", "normal"); ("diss", "dissolve"); ("dark", "darken"); ("mul ", "multiply");
   ("idiv", "color-burn"); ("lbrn", "linear-burn"); ("dkCl", "darker-color"); ("lite", "lighten"); ("scrn", "screen");
   ("div ", "color-dodge"); ("lddg", "linear-dodge"); ("lgCl", "lighter-color"); ("over", "overlay"); ("sLit", "soft-light");
   ("hLit", "hard-light"); ("vLit", "vivid-light"); ("lLit", "linear-light"); ("pLit", "pin-light"); ("hMix", "hard-mix");
   ("diff", "difference"); ("smud", "exclusion"); ("fsub", "subtract"); ("fdiv", "divide"); ("hue ", "hue");
   ("sat ", "saturation"); ("colr", "color"); ("lum ", "luminosity")]%string.
Fixpoint modeString (names : list (bytes * bytes)) (bm : bytes) : bytes :=
  match names with
  | [] => str "unknown-blend-name-" ++ bm
  | (k, n) :: names => if list_eqb bm k then n else modeString names bm
  end.
Definition String (bm : bytes) : bytes := modeString modeNames bm.
