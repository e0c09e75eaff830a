(** Model of how a curve becomes text: /repo/src/io/output.c:27-184, on top of the JSON library
    (Json_Model).

    PARI's formatting is given by three functions: [hexw n] is pari_sprintf("%P0#*x", cfg->hex_digits, n),
    [hexp n] is pari_sprintf("%P#x", n) and [dec n] is pari_sprintf("%Pi", n). The type of the field
    agrees with cfg->field, so the default case of output.c:80-82 does not happen. *)
From Coq Require Import Ascii String.
From Verif Require Import Base Bits_Model Str_Model Cli_Model Poly_Model Points_Model Hex_Model Json_Spec Json_Model.
Local Open Scope Z_scope.

(** the fields of curve_t that are looked at; [c_ngens] is ngens and [c_gens] what generators points to *)
Record cmeta := CMeta { m_j : option Z; m_disc : option Z; m_embedding : option Z; m_frobenius : option Z; m_cm : option Z; m_conductor : option Z }.
Record ccurve := CCurve { c_field : field; c_seed : option bits_t; c_a : element; c_b : element; c_order : Z;
  c_gens : list (subgroup_t hpoint); c_meta : cmeta }.

Definition object := list (list ascii * jval).

Section Output.
Variable hexw hexp dec : Z -> list ascii.

(** src/io/output.c:27-49; a NULL point is dereferenced, and gel(point, 2) of the point at infinity is
    outside the vector *)
Definition output_json_point (point : option (point_t hpoint)) : res object :=
  match point with
  | None => UB
  | Some p =>
      match p_point p with
      | None => UB
      | Some (x, y) =>
          let o := json_object_set_string [] (lit "x") (hexw (field_elementi x)) in
          let o := json_object_set_string o (lit "y") (hexw (field_elementi y)) in
          let o := json_object_set_string o (lit "order") (hexp (p_order p)) in
          Ok (match p_cofactor p with
              | Some c => json_object_set_string o (lit "cofactor") (hexp c)
              | None => o
              end)
      end
  end.

(** src/io/output.c:121-131 *)
Definition output_points (gen_object : object) (g : subgroup_t hpoint) : res object :=
  if (s_npoints g =? 0)%nat then Ok gen_object
  else
    do array <- for_to (s_npoints g) (fun j array =>
        match s_points g with
        | None => UB
        | Some points =>
            do p <- rd points j;
            do o <- output_json_point p;
            Ok (json_array_append_value array (JObj o))
        end) [];
    Ok (match json_object_set_value gen_object (lit "points") (Some (JArr array)) with Some o => o | None => gen_object end).

(** src/io/output.c:112-135; ngens is the length of the array *)
Definition output_subgroups (root : object) (gens : list (subgroup_t hpoint)) : res object :=
  if (length gens =? 0)%nat then Ok root
  else
    do array <- for_to (length gens) (fun i array =>
        do g <- rd gens i;
        do o <- output_json_point (Some (s_gen g));
        do o <- output_points o g;
        Ok (json_array_append_value array (JObj o))) [];
    Ok (match json_object_set_value root (lit "subgroups") (Some (JArr array)) with Some o => o | None => root end).

(** src/io/output.c:85-97: the text of the seed *)
Definition seed_hex (b : bits_t) : res (list ascii) :=
  do hex_str <- bits_to_hex b;
  do hex <- try_calloc (u64 (Z.of_nat (length hex_str) + 3));
  do hex <- (if bsign b then (do h <- wr hex 0 "-"%char; wr h 1 "0"%char)
             else (do h <- wr hex 0 "0"%char; wr h 1 "x"%char));
  do hex <- strcat hex hex_str;
  do hex <- (if bsign b then wr hex 2 "x"%char else Ok hex);
  c_text hex.

(** src/io/output.c:57-83 *)
Definition output_field (f : field) : res object :=
  match f with
  | Prime p => Ok (json_object_dotset_string [] (lit "field.p") (hexw p))
  | Binary _ =>
      do v <- field_params f;
      do m <- rd v 0; do e1 <- rd v 1; do e2 <- rd v 2; do e3 <- rd v 3;
      let root := json_object_dotset_string [] (lit "field.m") (hexp m) in
      let root := json_object_dotset_string root (lit "field.e1") (hexp e1) in
      let root := json_object_dotset_string root (lit "field.e2") (hexp e2) in
      Ok (json_object_dotset_string root (lit "field.e3") (hexp e3))
  end.

(** src/io/output.c:84-101 *)
Definition output_seed (root : object) (seed : option bits_t) : res object :=
  match seed with
  | Some b => do hex <- seed_hex b; Ok (json_object_set_string root (lit "seed") hex)
  | None => Ok root
  end.

(** src/io/output.c:137-171: one member of the metadata *)
Definition output_meta (name : string) (v : option Z) (root : object) : object :=
  match v with Some n => json_object_dotset_string root (lit name) (dec n) | None => root end.

(** src/io/output.c:51-176; [metadata] is cfg->metadata *)
Definition output_jjson (metadata : bool) (c : ccurve) : res object :=
  do root <- output_field (c_field c);
  do root <- output_seed root (c_seed c);
  let root := json_object_set_string root (lit "a") (hexw (field_elementi (c_a c))) in
  let root := json_object_set_string root (lit "b") (hexw (field_elementi (c_b c))) in
  let root := json_object_set_string root (lit "order") (hexw (c_order c)) in
  do root <- output_subgroups root (c_gens c);
  if metadata then
    let m := c_meta c in
    let root := output_meta "meta.j" (m_j m) root in
    let root := output_meta "meta.discriminant" (m_disc m) root in
    let root := output_meta "meta.embedding_degree" (m_embedding m) root in
    let root := output_meta "meta.frobenius" (m_frobenius m) root in
    let root := output_meta "meta.cm_discriminant" (m_cm m) root in
    Ok (output_meta "meta.conductor" (m_conductor m) root)
  else Ok root.

(** src/io/output.c:178-184; the C string returned, [None] is NULL *)
Definition output_sjson (junk : nat -> ascii) (metadata : bool) (c : ccurve) : res (option (list ascii)) :=
  do root <- output_jjson metadata c;
  do result <- json_serialize_to_string_pretty junk (JObj root);
  match result with
  | Some buf => do t <- c_text buf; Ok (Some t)
  | None => Ok None
  end.
End Output.
