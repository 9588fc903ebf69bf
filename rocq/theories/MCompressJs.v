(** Model of the other builds of decodePackBits: compress_js.go with compress.inc.js
    (GopherJS) and compress_wasm_js.go (wasm).

    compress_wasm_js.go is compress_other.go without the goroutines: lines 11-42 and 47-78 are the
    lines 12-43 and 83-114 there, and the line between is line 53. It is thus
    [decodePackBits_data] of [MCompress] with one processor.

    compress_js.go reads the same table and the same data; the lines are decoded by the
    JavaScript function modelled here. *)
From Verif Require Import Base MUtil MCompress.

(** buf[ofs] in JavaScript; [None] is undefined. Stored into a Uint8Array it is 0. *)
Definition js_byte (o : option Z) : Z := match o with Some c => c | None => 0 end.
(** compress.inc.js:26-28: the bytes from [ofs] on *)
Definition js_copy (buf : bytes) (ofs l : Z) : bytes := map (fun k => js_byte (idx buf (ofs + k))) (zseq (Z.to_nat l)).

(** compress.inc.js:20-43: the loop over one line. [done] is dest[0:d], [dest] the rest of
    dest. If buf[ofs] is undefined, the two comparisons are false, l is NaN,
    "dest.length < d+l" is false and the loop at 39 makes no round. Each round advances
    [ofs] within [buf], or [j]. *)
Fixpoint js_line (fuel : nat) (done dest buf : bytes) (ln j ofs : Z) : outcome (bytes * bytes * Z) :=
  match fuel with
  | O => NoFuel
  | S fuel =>
      if j <? ln then
        match idx buf ofs with
        | None => if ln <=? j + 1 then Err EBrokenPackBits else js_line fuel done dest buf ln (j + 2) (ofs + 2)
        | Some c =>
            if c <=? 127 then
              let l := c + 1 in
              if (zlen dest <? l) || (ln - j - 1 <? l) then Err EBrokenPackBits
              else js_line fuel (done ++ js_copy buf (ofs + 1) l) (skipn (Z.to_nat l) dest) buf ln (j + (l + 1)) (ofs + 1 + l)
            else if c =? 128 then js_line fuel done dest buf ln j (ofs + 1)
            else
              let l := 256 - c + 1 in
              if (zlen dest <? l) || (ln <=? j + 1) then Err EBrokenPackBits
              else js_line fuel (done ++ zrepeat (js_byte (idx buf (ofs + 1))) l) (skipn (Z.to_nat l) dest) buf ln (j + 2) (ofs + 2)
        end
      else Ok (done, dest, ofs)
  end.
(** compress.inc.js:16-46 *)
Fixpoint js_lines (done dest buf : bytes) (lens : list Z) (ofs : Z) : outcome bytes :=
  match lens with
  | [] => Ok (done ++ dest)
  | ln :: lens =>
      obind (js_line (S (length buf + Z.to_nat ln)) done dest buf ln 0 ofs) (fun '(done, dest, ofs) => js_lines done dest buf lens ofs)
  end.
Definition jsDecodePackBits (dest buf : bytes) (lens : list Z) : outcome bytes := js_lines [] dest buf lens 0.
