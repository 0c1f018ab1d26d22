(** The model run on the inputs of the repository's own tests (/repo/tests),
    compared with the numbers written there.  These are tests of the model, not
    theorems about it: every Goal below is True, and building the file fails when
    a comparison does not come out. *)
From Coq Require Import String ZArith Bool Arith List.
From Verif Require Import Prelude Num GridModel GeoModel PropModel UnitsModel BlackOilModel FdmModel HistSpec.
Import ListNotations.
Local Open Scope string_scope.
Local Open Scope Z_scope.

(** Fixed point numbers with 120 binary places. *)
Definition fx := Z.
Definition unit_fx : Z := 2 ^ 120.
Definition fdivz (a b : Z) : Z := if b =? 0 then 0 else a * unit_fx / b.
#[local] Instance Num_fx : Num fx := {|
  n0 := 0; n1 := unit_fx; nadd := Z.add; nsub := Z.sub;
  nmul a b := a * b / unit_fx; ndiv := fdivz; nopp := Z.opp; nltb := Z.ltb; neqb := Z.eqb;
  nofZ z := z * unit_fx |}.
(** ln: powers of two are taken out, the rest is the series of 2 artanh. *)
Fixpoint artanh (n : nat) (k y2 acc pw : Z) : Z :=
  match n with
  | O => acc
  | S n => artanh n (k + 2) y2 (acc + pw / k) (pw * y2 / unit_fx)
  end.
Definition ln_near1 (x : Z) : Z :=
  let y := fdivz (x - unit_fx) (x + unit_fx) in 2 * artanh 120 1 (y * y / unit_fx) 0 y.
Definition ln_fx (x : Z) : Z :=
  let e := Z.log2 x - 120 in
  ln_near1 (if 0 <=? e then x / 2 ^ e else x * 2 ^ (- e)) + e * ln_near1 (2 * unit_fx).
#[local] Instance NumT_fx : NumT fx := {|
  nsqrt x := Z.sqrt (x * unit_fx); nln := ln_fx;
  npi := 31415926535897932384626433832795028841971 * unit_fx / 10 ^ 40 |}.
Definition d_fx (m e : Z) : fx := ndiv (nofZ m) (nofZ (10 ^ e)).
Definition i_fx (m : Z) : fx := nofZ m.

(** Gaussian elimination without pivoting (the matrices of the tests allow it). *)
Definition row_sub (f : Z) (a b : list Z) : list Z :=
  map (fun x => fst x - snd x * f / unit_fx) (combine a b).
Fixpoint eliminate (n : nat) (rows : list (list Z)) : option (list Z) :=
  match n with
  | O => Some []
  | S n =>
    match rows with
    | (p :: pr) :: others =>
      if p =? 0 then None else
      match eliminate n (map (fun r => match r with h :: t => row_sub (fdivz h p) t pr | [] => [] end) others) with
      | None => None
      | Some ys =>
          let rhs := last pr 0 in
          Some (fdivz (rhs - fold_right Z.add 0 (map (fun x => fst x * snd x / unit_fx) (combine (removelast pr) ys))) p :: ys)
      end
    | _ => None
    end
  end.
Definition gauss : solver_kind -> @mat fx -> list (fl fx) -> res (list (fl fx)) := fun _ A d =>
  let n := msize A in
  let rows := map (fun i => map (ment A i) (seq 0 n) ++ [match nth i d None with Some v => v | None => 0 end])%list (seq 0 n) in
  if existsb (fun v => match v with None => true | Some _ => false end) d then Err ValueError else
  match eliminate n rows with
  | Some y => Ok (map Some y)
  | None => Err ValueError
  end.
Definition asis : Z -> fx := fun _ => unit_fx.

(** Equal up to 2/100000, the precision of the tests; expected numbers are
    written in hundred thousandths, None is NaN. *)
Definition near (a : fl fx) (b : option Z) : bool :=
  match a, b with
  | Some x, Some y => Z.abs (x * 100000 - y * unit_fx) <=? 2 * unit_fx
  | None, None => true
  | _, _ => false
  end.
Fixpoint all2 {A B} (f : A -> B -> bool) (l : list A) (r : list B) : bool :=
  match l, r with
  | [], [] => true
  | a :: l, b :: r => f a b && all2 f l r
  | _, _ => false
  end.
Definition table (a : list (list (fl fx))) (b : list (list (option Z))) : bool := all2 (all2 near) a b.
(** Computes in the tactic, leaves no computation in the proof. *)
Ltac test b := let v := eval vm_compute in b in constr_eq v true; exact I.

(** All calls succeed; the state they lead to. *)
Definition perform (m : res (bo fx)) (l : list (call fx)) : res (bo fx * fs fx) :=
  let fix go x l := match l with
                    | [] => match snd x with Some s => Ok (fst x, s) | None => Err AttributeError end
                    | c :: l => match exec c x with (y, Ok _) => go y l | (_, Err e) => Err e end
                    end in
  let* m := m in go (m, None) l.
Definition holds (r : res (bo fx * fs fx)) (f : bo fx * fs fx -> bool) : bool :=
  match r with Ok x => f x | Err _ => false end.
Definition inner (m : bo fx) (r : list (fl fx)) : list (fl fx) := map (fun i => nth (Z.to_nat i) r None) (b_ids m).
Definition pwfs (m : bo fx) : list (list (fl fx)) := map snd (b_wp m).
Definition attr_is (f : well fx -> fl fx) (id v : Z) (m : bo fx) : bool :=
  match dget id (b_wells m) with Some w => near (f w) (Some v) | None => false end.
Definition gof (w : well fx) : fl fx := w_G w.

(** ** test_grids_cell_id_coords.py *)
Definition g333 := mkGrid 3 3 3 true.
Definition ids_of (b : bool) (l : list (coord * Z)) : bool :=
  forallb (fun e => match get_cell_id g333 (fst e) b with Some i => i =? snd e | None => false end &&
                    match get_cell_coords g333 (snd e) b with Ok c => coord_eqb c (fst e) | Err _ => false end) l.
Goal True. Proof.
test (ids_of false [((0,0,0),0); ((2,0,0),2); ((0,2,0),6); ((0,0,2),18); ((2,2,0),8); ((2,2,2),26)] &&
      ids_of true [((1,1,1),31); ((3,1,1),33); ((1,3,1),41); ((1,1,3),81); ((3,3,1),43); ((3,3,3),93)]).
Qed.

(** ** test_grids_cell_d_area_volume.py *)
Definition g222 : res (geo fx) :=
  geo_new 2 2 2 true (Vec (map i_fx [11; 21; 31; 41])) (Vec (map i_fx [12; 22; 32; 42])) (Vec (map i_fx [13; 23; 33; 43])).
Definition is (r : res fx) (v : Z) : bool := match r with Ok x => x =? i_fx v | Err _ => false end.
Definition cell_is (r : cellref) (d a : list Z) (v : Z) : bool :=
  match g222 with
  | Ok G => forallb (fun e => is (get_cell_d G (fst e) r) (snd e)) (combine [AX; AY; AZ] d) &&
            forallb (fun e => is (get_cell_A G (fst e) r) (snd e)) (combine [AX; AY; AZ] a) && is (get_cell_V G r) v
  | Err _ => false
  end.
Goal True. Proof.
test (cell_is (ById 21) [21; 22; 23] [506; 483; 462] 10626 && cell_is (ById 42) [31; 32; 33] [1056; 1023; 992] 32736 &&
      cell_is (ByCoords (1,1,1)) [21; 22; 23] [506; 483; 462] 10626 &&
      cell_is (ByCoords (2,2,2)) [31; 32; 33] [1056; 1023; 992] 32736).
Qed.

(** ** Examples 7.1, 7.3, 7.4, 7.5, 7.9 *)
Definition line4 (comp : option fx) (zz : option (dinput fx)) (rho fcomp : option fx) (pi : option fx) : res (bo fx) :=
  let* g := gobj_new 4 1 1 true (Scalar (i_fx 300)) (Scalar (i_fx 350)) (Scalar (i_fx 40))
              (Some (Scalar (i_fx 270))) None None (Some (Scalar (d_fx 27 2))) zz comp (d_fx 1127 6) in
  let* f := fluid_new (Some (d_fx 5 1)) (Some (i_fx 1)) rho fcomp "field" in
  bo_new g f "field" pi (i_fx 1).
Definition qwell := Set_well (Some 4) (Some (i_fx (-600))) None (Some (d_fx 35 1)) (Some (d_fx 15 1)).
Definition pwell := Set_well (Some 4) None (Some (i_fx 3899)) (Some (d_fx 35 1)) (Some (d_fx 15 1)).
Definition left_p (rest : list (Z * (string * fx))) := Set_boundaries ((0, ("pressure", i_fx 4000)) :: rest).
Definition right_0 := [(5, ("rate", i_fx 0))].
Definition one_step (vect : bool) := Solve gauss asis 5%nat true (mkOpts false vect true true false (Some "cgs")).
Definition prow (x : bo fx * fs fx) := nth 1 (s_p (snd x)) [].
Definition rrow (x : bo fx * fs fx) := nth 1 (s_r (snd x)) [].
Definition trans_is (v : Z) (m : res (bo fx)) : bool :=
  match m with
  | Ok m => match get_cells_trans_diag_1 m true with
            | Ok l => all2 near (map Some l) (repeat (Some v) 5) | Err _ => false end
  | Err _ => false
  end.
Goal True. Proof. test (trans_is 2840040 (line4 None None None None None)). Qed.

Definition ex71 vect := perform (line4 None None None None None) [qwell; left_p right_0; Compile; one_step vect].
Definition ok71 (x : bo fx * fs fx) : bool :=
  table [prow x] 
   [[Some 400000000; Some 398943676; Some 396831030; Some 394718384; Some 392605737; None]] &&
  table [rrow x] 
   [[Some 60000000; Some 0; Some 0; Some 0; Some (-60000000); Some 0]] &&
  attr_is gof 4 1108453 (fst x) && attr_is (fun w => w_req w) 4 6453681 (fst x) &&
  table (map (fun l => [last l None]) (pwfs (fst x))) 
   [[Some 389899264]].
Goal True. Proof. test (holds (ex71 true) ok71). Qed.
Goal True. Proof. test (holds (ex71 false) ok71). Qed.

Definition ex73 vect := perform (line4 None None None None None) [pwell; left_p right_0; Compile; one_step vect].
Definition ok73 (x : bo fx * fs fx) : bool :=
  table [prow x] 
   [[Some 400000000; Some 398943753; Some 396831261; Some 394718768; Some 392606276; None]] &&
  table [rrow x] 
   [[Some 59995632; Some 0; Some 0; Some 0; Some (-59995632); Some 0]].
Goal True. Proof. test (holds (ex73 true) ok73). Qed.
Goal True. Proof. test (holds (ex73 false) ok73). Qed.

Definition ex74 vect := perform (line4 None None None None None)
  [qwell; left_p [(5, ("gradient", d_fx (-2) 1))]; Compile; one_step vect].
Definition ok74 (x : bo fx * fs fx) : bool :=
  table [inner (fst x) (prow x)] 
   [[Some 395943677; Some 387831031; Some 379718384; Some 371605738]] &&
  table [rrow x] 
   [[Some 230402400; Some 0; Some 0; Some 0; Some (-60000000); Some (-170402400)]] &&
  table (map (fun l => [last l None]) (pwfs (fst x))) 
   [[Some 368899265]].
Goal True. Proof. test (holds (ex74 true) ok74). Qed.

Definition z75 := Some (Vec (map (fun v => d_fx v 2) [321273; 318234; 312156; 306078; 300000; 296962])).
Definition ex75 vect := perform (line4 None z75 (Some (i_fx 50)) None None) [qwell; left_p right_0; Compile; one_step vect].
Definition ok75 (x : bo fx * fs fx) : bool :=
  table [inner (fst x) (prow x)] 
   [[Some 397888469; Some 393665409; Some 389442348; Some 385219288]] &&
  table [rrow x] 
   [[Some 60000000; Some 0; Some 0; Some 0; Some (-60000000); Some 0]] &&
  table (map (fun l => [last l None]) (pwfs (fst x))) 
   [[Some 382512815]].
Goal True. Proof. test (holds (ex75 true) ok75). Qed.

Definition ex79 := perform (line4 (Some (d_fx 1 6)) None (Some (i_fx 50)) (Some (d_fx 1 5)) (Some (i_fx 4000)))
  [qwell; left_p right_0; Compile; Run gauss asis 10%nat 5%nat false false true true false (Some "cgs")].
Definition ok79 (x : bo fx * fs fx) : bool :=
  table [map Some (b_RHS (fst x))] [repeat (Some 222171) 6] &&
  table (s_p (snd x)) 
   [[Some 400000000; Some 400000000; Some 400000000; Some 400000000; Some 400000000; None];
    [Some 400000000; Some 399374571; Some 398074785; Some 396624394; Some 394909935; None];
    [Some 400000000; Some 399095346; Some 397264194; Some 395369632; Some 393376911; None];
    [Some 400000000; Some 398995516; Some 396978737; Some 394939628; Some 392866881; None];
    [Some 400000000; Some 398961295; Some 396881208; Some 394793491; Some 392694342; None];
    [Some 400000000; Some 398949658; Some 396848065; Some 394743878; Some 392635811; None];
    [Some 400000000; Some 398945707; Some 396836813; Some 394727038; Some 392615945; None];
    [Some 400000000; Some 398944366; Some 396832993; Some 394721322; Some 392609203; None];
    [Some 400000000; Some 398943911; Some 396831697; Some 394719381; Some 392606914; None];
    [Some 400000000; Some 398943756; Some 396831257; Some 394718723; Some 392606137; None];
    [Some 400000000; Some 398943704; Some 396831107; Some 394718499; Some 392605873; None]] &&
  table (s_r (snd x)) 
   [[Some 0; Some 0; Some 0; Some 0; Some 0; Some 0];
    [Some 35524893; Some 0; Some 0; Some 0; Some (-60000000); Some 0];
    [Some 51385077; Some 0; Some 0; Some 0; Some (-60000000); Some 0];
    [Some 57055515; Some 0; Some 0; Some 0; Some (-60000000); Some 0];
    [Some 58999280; Some 0; Some 0; Some 0; Some (-60000000); Some 0];
    [Some 59660248; Some 0; Some 0; Some 0; Some (-60000000); Some 0];
    [Some 59884673; Some 0; Some 0; Some 0; Some (-60000000); Some 0];
    [Some 59960854; Some 0; Some 0; Some 0; Some (-60000000); Some 0];
    [Some 59986713; Some 0; Some 0; Some 0; Some (-60000000); Some 0];
    [Some 59995490; Some 0; Some 0; Some 0; Some (-60000000); Some 0];
    [Some 59998469; Some 0; Some 0; Some 0; Some (-60000000); Some 0]] &&
  table (pwfs (fst x)) 
   [[Some 400000000; Some 392203461; Some 390670438; Some 390160408; Some 389987869; Some 389929337; Some 389909472; Some 389902729; Some 389900441; Some 389899664; Some 389899400]] &&
  table [[match s_cum (snd x) with Some v => v | None => None end]] [[Some 10000]].
Goal True. Proof. test (holds ex79 ok79). Qed.

(** ** Example 7.7 *)
Definition m77 : res (bo fx) :=
  let* g := gobj_new 2 2 1 false (Scalar (i_fx 350)) (Scalar (i_fx 250)) (Scalar (i_fx 30))
              (Some (Scalar (i_fx 150))) (Some (Scalar (i_fx 100))) None (Some (Scalar (d_fx 27 2))) None None (d_fx 1127 6) in
  let* f := fluid_new (Some (d_fx 35 1)) (Some (i_fx 1)) (Some (i_fx 50)) None "field" in
  bo_new g f "field" None (i_fx 1).
Definition ex77 vect := perform m77
  [Set_well (Some 6) None (Some (i_fx 2000)) (Some (i_fx 3)) (Some (i_fx 0));
   Set_well (Some 9) (Some (i_fx (-600))) None (Some (i_fx 3)) (Some (i_fx 0));
   Set_boundaries [(1, ("pressure", i_fx 4000)); (2, ("pressure", i_fx 4000)); (4, ("rate", i_fx 500));
                   (7, ("gradient", d_fx (-3) 1)); (11, ("gradient", d_fx (-3) 1)); (14, ("rate", i_fx (-200)))];
   Compile; one_step vect].
Definition ok77 (x : bo fx * fs fx) : bool :=
  table (s_p (snd x)) 
   [[None; Some 400000000; Some 400000000; None; None; None; None; None; None; None; None; None; None; None; None; None];
    [None; Some 400000000; Some 400000000; None; None; Some 377236025; Some 335419841; None; None; Some 326738946; Some 318727110; None; None; None; None; None]] &&
  table (s_r (snd x)) 
   [[Some 0; Some 0; Some 0; Some 0; Some 50000000; Some 0; Some 0; Some (-10867500); Some 0; Some 0; Some 0; Some (-10867500); Some 0; Some 0; Some (-20000000); Some 0];
    [Some 0; Some 61572000; Some 174676413; Some 0; Some 50000000; Some 0; Some (-184513414); Some (-10867500); Some 0; Some (-60000000); Some 0; Some (-10867500); Some 0; Some 0; Some (-20000000); Some 0]] &&
  table (pwfs (fst x)) 
   [[None; Some 200000000];
    [None; Some 282703174]].
Goal True. Proof. test (holds (ex77 true) ok77). Qed.

(** ** Example 7.11: the well switches to its minimum pressure at step 19 *)
Definition m711 : res (bo fx) :=
  let* g := gobj_new 5 1 1 false (Vec (map i_fx [400; 400; 300; 150; 200; 250; 250])) (Scalar (i_fx 500)) (Scalar (i_fx 50))
              (Some (Vec (map i_fx [273; 273; 248; 127; 333; 198; 198]))) None None
              (Some (Vec (map (fun v => d_fx v 2) [21; 21; 17; 10; 25; 13; 13]))) None (Some (i_fx 0)) (d_fx 1127 6) in
  let* f := fluid_new (Some (d_fx 15 1)) (Some (i_fx 1)) (Some (i_fx 50)) (Some (d_fx 25 6)) "field" in
  bo_new g f "field" (Some (i_fx 3000)) (i_fx 5).
Definition ex711 vect := perform m711
  [Set_well (Some 4) (Some (i_fx (-400))) (Some (i_fx 1500)) (Some (i_fx 3)) (Some (i_fx 0));
   Set_boundaries [(0, ("rate", i_fx 0)); (6, ("rate", i_fx 0))];
   Compile; Run gauss asis 27%nat 5%nat true false vect true false (Some "cgs")].
Definition ok711 (x : bo fx * fs fx) : bool :=
  table (map (inner (fst x)) (s_p (snd x))) 
   [[Some 300000000; Some 300000000; Some 300000000; Some 300000000; Some 300000000];
    [Some 293679550; Some 292837920; Some 291568146; Some 290488311; Some 290817833];
    [Some 286176078; Some 285176917; Some 283730291; Some 282528067; Some 282815257];
    [Some 278483413; Some 277459059; Some 275985808; Some 274765221; Some 275044105];
    [Some 270761238; Some 269732955; Some 268255595; Some 267032173; Some 267309737];
    [Some 263034482; Some 262005588; Some 260527591; Some 259303730; Some 259581089];
    [Some 255307014; Some 254278026; Some 252799931; Some 251576001; Some 251853328];
    [Some 247579436; Some 246550433; Some 245072323; Some 243848382; Some 244125705];
    [Some 239851841; Some 238822836; Some 237344723; Some 236120781; Some 236398103];
    [Some 232124244; Some 231095238; Some 229617125; Some 228393182; Some 228670504];
    [Some 224396645; Some 223367640; Some 221889527; Some 220665584; Some 220942906];
    [Some 216669047; Some 215640042; Some 214161928; Some 212937986; Some 213215308];
    [Some 208941449; Some 207912444; Some 206434330; Some 205210388; Some 205487710];
    [Some 201213851; Some 200184845; Some 198706732; Some 197482790; Some 197760111];
    [Some 193486253; Some 192457247; Some 190979134; Some 189755192; Some 190032513];
    [Some 185758655; Some 184729649; Some 183251536; Some 182027594; Some 182304915];
    [Some 178031057; Some 177002051; Some 175523938; Some 174299996; Some 174577317];
    [Some 170303459; Some 169274453; Some 167796340; Some 166572398; Some 166849719];
    [Some 162575861; Some 161546855; Some 160068742; Some 158844799; Some 159122121];
    [Some 155758441; Some 154850634; Some 153555375; Some 152486934; Some 152716803];
    [Some 152461357; Some 152022318; Some 151425535; Some 150947054; Some 151008365];
    [Some 151035402; Some 150845522; Some 150590774; Some 150387704; Some 150409206];
    [Some 150433934; Some 150353843; Some 150246730; Some 150161455; Some 150170038];
    [Some 150181703; Some 150148116; Some 150103230; Some 150067506; Some 150071058];
    [Some 150076069; Some 150062003; Some 150043209; Some 150028252; Some 150029735];
    [Some 150031845; Some 150025956; Some 150018088; Some 150011826; Some 150012446];
    [Some 150013331; Some 150010866; Some 150007572; Some 150004951; Some 150005210];
    [Some 150005581; Some 150004549; Some 150003170; Some 150002072; Some 150002181]] &&
  table (map (fun r => [nth 4 r None]) (s_r (snd x))) 
   [[Some 0];
    [Some (-40000000)];
    [Some (-40000000)];
    [Some (-40000000)];
    [Some (-40000000)];
    [Some (-40000000)];
    [Some (-40000000)];
    [Some (-40000000)];
    [Some (-40000000)];
    [Some (-40000000)];
    [Some (-40000000)];
    [Some (-40000000)];
    [Some (-40000000)];
    [Some (-40000000)];
    [Some (-40000000)];
    [Some (-40000000)];
    [Some (-40000000)];
    [Some (-40000000)];
    [Some (-40000000)];
    [Some (-34239790)];
    [Some (-13038923)];
    [Some (-5337852)];
    [Some (-2222892)];
    [Some (-929418)];
    [Some (-388964)];
    [Some (-162818)];
    [Some (-68158)];
    [Some (-28532)]] &&
  table (pwfs (fst x)) 
   [[Some 300000000; Some 287582996; Some 279622752; Some 271859906; Some 264126858; Some 256398415; Some 248670686; Some 240943067; Some 233215466; Some 225487867; Some 217760269; Some 210032671; Some 202305073; Some 194577475; Some 186849877; Some 179122279; Some 171394681; Some 163667082; Some 155939484; Some 150000000; Some 150000000; Some 150000000; Some 150000000; Some 150000000; Some 150000000; Some 150000000; Some 150000000; Some 150000000]] &&
  table [map Some (b_RHS (fst x))]
    [[Some 187013; Some 187013; Some 113544; Some 33395; Some 111317; Some 72356; Some 72356]] &&
  attr_is gof 4 2065180 (fst x) && attr_is (fun w => w_req w) 4 7539231 (fst x).
Goal True. Proof. test (holds (ex711 true) ok711). Qed.
Goal True. Proof. test (holds (ex711 false) ok711). Qed.
