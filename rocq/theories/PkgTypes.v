(** * Packages: what the encoder hands to the library github.com/qmuntal/opc and what the decoder gets from it *)
From Verif Require Import GoBase Types.

(** A part written (opc.Part and the bytes written to it) and the package, with its own relationships (opc.Writer) *)
Record Part := mkPart { pt_name : string; pt_ctype : string; pt_data : string; pt_rels : list Relationship }.
Record Pkg := mkPkg { pk_rels : list Relationship; pk_parts : list Part }.
(** A part of the package: [pf_data] is [None] if opening or reading it fails *)
Record PFile := mkPF { pf_name : string; pf_ctype : string; pf_data : option string; pf_rels : list Relationship }.
Record PkgIn := mkPI { pi_rels : list Relationship; pi_files : list PFile }.
