(** * Printing a hierarchy

    framework_python/rei/foundations/hierarchical_traversal_strategies.py:97-125 *)
From Verif Require Export Traverse.

(** A line of output.  The text of a weight (a value node or None) depends on the
    memory address; it is kept as the weight itself, after the text. *)
Definition line : Type := string * option weight.

(** print_element, lines 107-120.  [None.id_name] raises AttributeError: an edge
    without parent, a relation without endpoint.  Other elements print nothing. *)
Definition print_element : visitor (list line) unit := fun s l out =>
  match heap s !! l with
  | None => (Exn BadRef, out)
  | Some o =>
      match o_kind o with
      | KNode =>
          match o_parent o with
          | None => (Ok tt, out ++ [("node " +:+ o_qname o +:+ ": " +:+ o_name o, None)])
          | Some p => match heap s !! p with
                      | Some op => (Ok tt, out ++ [("node " +:+ o_qname o +:+ ": " +:+ o_name o +:+ " <- " +:+ o_name op, None)])
                      | None => (Exn BadRef, out)
                      end
          end
      | KEdge =>
          match o_parent o with
          | None => (Exn AttributeError, out)
          | Some p => match heap s !! p with
                      | Some op => (Ok tt, out ++ [("edge " +:+ o_qname o +:+ ": " +:+ o_name o +:+ " " +:+ str_of_Z (o_cnt o) +:+ " <- " +:+ o_name op, None)])
                      | None => (Exn BadRef, out)
                      end
          end
      | KRel =>
          match o_endpoint o with
          | None => (Exn AttributeError, out)
          | Some e => match heap s !! e with
                      | Some oe => (Ok tt, out ++ [("relation " +:+ o_qname o +:+ ": " +:+ direction_to_text (o_dir o) +:+ " " +:+ o_name oe +:+ ":: ", Some (o_weight o))])
                      | None => (Exn BadRef, out)
                      end
          end
      | _ => (Ok tt, out)
      end
  end.

(** print_graph_hierarchy, lines 123-125 *)
Definition print_graph_hierarchy (lim : nat) (start : loc) (s : st) (out : list line) : res (list unit) * st * list line :=
  execute_bfs lim (mkTrav (fun _ _ => true) None false) print_element start s out.
