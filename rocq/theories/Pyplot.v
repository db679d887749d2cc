(* The part of matplotlib.pyplot the plots use: numbered figures, one of them current, and files. *)
From Coq Require Import String.
From Coq Require Import ZArith List Bool.
From Verif Require Import Num.
Import ListNotations.

Section Pyplot.
  Context {D : Type}.          (* what can be drawn *)

  (* plt.figure(), plt.figure(n), plt.subplot(..k), the drawing calls, plt.savefig, plt.show *)
  Inductive command : Type :=
    | NewFigure | Figure (n : nat) | Subplot (k : nat) | Draw (d : D) | Savefig (file : string) | Show.

  (* a figure: its number, its current axes (0 for those plt.gca makes in an empty figure) and everything
     drawn so far with the axes it is drawn in *)
  Record figure : Type := mkFigure { fg_num : nat; fg_axes : nat; fg_content : list (nat * D) }.
  (* the open figures, the current one first, and the files written *)
  Record session : Type := mkSession { open_figures : list figure; files : list (string * list (nat * D)) }.

  Definition max_num (l : list figure) : nat := fold_right (fun f m => Nat.max (fg_num f) m) 0 l.
  Definition new_figure (l : list figure) : list figure := mkFigure (S (max_num l)) 0 [] :: l.
  Definition activate (n : nat) (l : list figure) : list figure :=
    match find (fun f => Nat.eqb (fg_num f) n) l with
    | Some f => f :: filter (fun f => negb (Nat.eqb (fg_num f) n)) l
    | None => mkFigure n 0 [] :: l
    end.
  (* plt.gcf(): the current figure, a new one if there is none *)
  Definition on_current (g : figure -> figure) (l : list figure) : list figure :=
    match l with
    | f :: r => g f :: r
    | [] => match new_figure [] with f :: r => g f :: r | [] => [] end
    end.

  (* show_closes: plt.show() returns after all windows were closed, and their figures are gone
     (interactive backends); otherwise it does nothing (non-interactive backends, or a patched show) *)
  Definition exec (show_closes : bool) (s : session) (c : command) : session :=
    match c with
    | NewFigure => mkSession (new_figure (open_figures s)) (files s)
    | Figure n => mkSession (activate n (open_figures s)) (files s)
    | Subplot k => mkSession (on_current (fun f => mkFigure (fg_num f) k (fg_content f)) (open_figures s)) (files s)
    | Draw d => mkSession (on_current (fun f => mkFigure (fg_num f) (fg_axes f) (fg_content f ++ [(fg_axes f, d)]))
                                      (open_figures s)) (files s)
    | Savefig file =>
        let figs := on_current (fun f => f) (open_figures s) in
        mkSession figs ((file, match figs with f :: _ => fg_content f | [] => [] end)
                        :: filter (fun e => negb (String.eqb (fst e) file)) (files s))
    | Show => mkSession (if show_closes then [] else open_figures s) (files s)
    end.
  Definition execs (show_closes : bool) (cs : list command) (s : session) : session := fold_left (exec show_closes) cs s.

  Definition file_content (s : session) (file : string) : option (list (nat * D)) :=
    option_map snd (find (fun e => String.eqb (fst e) file) (files s)).

  (* the calls a function makes, and the exception that ends them *)
  Definition prog : Type := list command * option exc.
  Definition pnil : prog := ([], None).
  Definition pdo (cs : list command) : prog := (cs, None).
  Definition praise (e : exc) : prog := ([], Some e).
  Definition pseq (p q : prog) : prog :=
    match snd p with
    | None => (fst p ++ fst q, snd q)
    | Some _ => p
    end.
  Definition pfor {A} (l : list A) (f : A -> prog) : prog := fold_right (fun a q => pseq (f a) q) pnil l.
  Definition pbind {A} (r : res A) (f : A -> prog) : prog :=
    match r with Ok a => f a | Raise e => praise e end.
  Definition prun (show_closes : bool) (p : prog) (s : session) : res unit * session :=
    (match snd p with None => Ok tt | Some e => Raise e end, execs show_closes (fst p) s).
End Pyplot.
Arguments command D : clear implicits.
Arguments prog D : clear implicits.
Arguments session D : clear implicits.
Arguments figure D : clear implicits.
