(** visualization.py and core.py:2189-2213 (System.show).  Model only.  What is
    drawn is kept as data: lines and clouds of points.  The appearance (line
    width, colour scale, axes, opacity, size of the figure) is left out, as are
    the widgets: [plot_system] returns the arguments they hold fixed, and every
    press of the button is a call of [plot_3d]. *)
From Coq Require Import Ascii String.
From Verif Require Import Base Num Types M_Geometry M_Container M_Steinhardt M_Text M_Lammps.
Set Implicit Arguments.
Unset Strict Implicit.

Section Visual.
Variable N : num.

(** go.Scatter3d with mode 'lines' (40-48) and with mode 'markers' (82-97). *)
Inductive trace :=
| Line (points : list (v3 N))
| Cloud (points : list (v3 N)) (colors : list N) (radius : N).

(** visualization.py:16-50, create_box_plot; [origin] as an argument.  Only the
    corner points (0 and 4) of the faces have the origin added. *)
Definition row (b : m3 N) (i : nat) : v3 N := match i with O => r0 b | S O => r1 b | _ => r2 b end.
Definition combos2 : list (nat * nat) := [(0, 1); (0, 2); (1, 2)]%nat.
Definition faces (b : m3 N) (origin : v3 N) (c : nat * nat) : list (list (v3 N)) :=
  let '(i, j) := c in
  let t := (3 - (i + j))%nat in
  [[origin; row b i; vadd (row b i) (row b j); row b j; origin];
   [vadd origin (row b t); vadd (row b i) (row b t); vadd (vadd (row b i) (row b j)) (row b t);
    vadd (row b j) (row b t); vadd origin (row b t)]].
Definition create_box_plot (b : m3 N) (origin : v3 N) : list trace :=
  map Line (flat_map (faces b origin) combos2).

(** visualization.py:53-126, plot_3d.  The list [traces] is changed in place:
    the result is what it holds afterwards, which is also what is shown.
    [pos[:,0]] of an empty array is an IndexError. *)
Definition plot_3d (pos : list (v3 N)) (color : list N) (radius : N) (traces : list trace) : res (list trace) :=
  match pos with
  | [] => Err IndexError
  | _ => Ok (traces ++ [Cloud pos color radius])
  end.

(** Values of attributes: an arbitrary type, with Python's truth value and the
    conversion of astype(float), here one value at a time. *)
Variable V : Type.
Variable of_text : text -> V.
Variable of_num : N -> V.
Variable getattr : atom N -> text -> option V.
Variable truth : V -> bool.
Variable to_float : V -> option N.

(** sys.get_custom(atom, [key])[0]. *)
Definition value_of (a : catom N) (key : text) : res V :=
  vs <- get_custom of_text of_num getattr a [key] ;;
  match vs with v :: _ => Ok v | [] => Err IndexError end.

(** visualization.py:150-166: the loop over the atoms. *)
Definition plot_step (s : sys N) (colorby filterby : option text) (st : list (v3 N) * list V) (a : catom N)
    : res (list (v3 N) * list V) :=
  let '(positions, colors) := st in
  positions <- (match filterby with
                | Some key => v <- value_of a key ;;
                              Ok (if truth v then positions ++ [remap_atom s (a_pos (fst a))] else positions)
                | None => Ok (positions ++ [remap_atom s (a_pos (fst a))])
                end) ;;
  colors <- (match colorby with
             | Some key => cx <- value_of a key ;; Ok (colors ++ [cx])
             | None => Ok (colors ++ [of_num n1])
             end) ;;
  Ok (positions, colors).
(** 167: np.array(colors).astype(float). *)
Definition astype_float (vs : list V) : res (list N) :=
  mapM (fun v => match to_float v with Some x => Ok x | None => Err ValueError end) vs.
(** visualization.py:129-181 and core.py:2189-2213; [customs] are the custom
    dictionaries of the atoms.  Returned: what the widget holds fixed, pos,
    color and traces. *)
Definition plot_system (s : sys N) (customs : list (dict text)) (colorby filterby : option text)
    : res (list (v3 N) * list N * list trace) :=
  atoms <- get_atoms s ;;
  '(positions, colors) <- foldM (plot_step s colorby filterby) (combine atoms customs) ([], []) ;;
  colors <- astype_float colors ;;
  Ok (positions, colors, create_box_plot (box_get s) (mkV n0 n0 n0)).

(** The button pressed once for each radius; the figure after the last press. *)
Fixpoint press (pos : list (v3 N)) (color : list N) (radii : list N) (traces : list trace) : res (list trace) :=
  match radii with
  | [] => Ok traces
  | r :: radii => traces <- plot_3d pos color r traces ;; press pos color radii traces
  end.
Definition show (s : sys N) (customs : list (dict text)) (colorby filterby : option text) (radii : list N)
    : res (list trace) :=
  '(pos, color, traces) <- plot_system s customs colorby filterby ;; press pos color radii traces.
End Visual.
