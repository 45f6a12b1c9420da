(** Model of gen_consts.py. No proofs. *)
From Coq Require Import Ascii String ZArith QArith List Bool.
From Verif Require Import PyBase Rnd Hashtable_Model.
From Verif Require Enum_Model.
Import ListNotations.
Local Open Scope Z_scope.
Local Open Scope res_scope.
Local Open Scope list_scope.

(** ---- library mpmath: working precision and numbers from texts ---- *)
(** libmpf.dps_to_prec: max(1, int(round((int(n)+1)*3.3219280948873626))), a product of floats; round() of a float is to
    the nearest integer, ties to even. [python or library primitive, used at gen_consts.py:10, 67] *)
Definition dps_to_prec (n : Z) : Z :=
  Z.max 1 (rne (Enum_Model.fl (Enum_Model.fl (inject_Z (n + 1)) * Enum_Model.fl (33219280948873626 # 10000000000000000)))).
(** mp.dps = n: the attribute dps becomes max(1, n), and the binary precision dps_to_prec(n). The state is the pair. [python or library primitive, used at gen_consts.py:10, 67] *)
Record mpctx := mkMp { mp_dps : Z; mp_prec : Z }.
(** python or library primitive, used at gen_consts.py:10, 67 *)
Definition set_dps (n : Z) : mpctx := mkMp (Z.max 1 n) (dps_to_prec n).
(** The number of a decimal text such as 3.14 : digits, a dot, digits. Characters other than digits and the dot do not
    occur in the file. [python or library primitive, used at gen_consts.py:12-59] *)
Definition dig (c : ascii) : Z := Z.of_nat (nat_of_ascii c) - 48.
(** python or library primitive, used at gen_consts.py:12-59 *)
Fixpoint dec_frac (s : text) (num : Z) (den : positive) : Q :=
  match s with
  | [] => num # den
  | c :: r => dec_frac r (10 * num + dig c) (10 * den)%positive
  end.
(** python or library primitive, used at gen_consts.py:12-59 *)
Fixpoint dec_lit (s : text) (num : Z) : Q :=
  match s with
  | [] => num # 1
  | c :: r => if Ascii.eqb c "."%char then dec_frac r num 1 else dec_lit r (10 * num + dig c)
  end.
(** dec(text): the value correctly rounded to the working precision. [python or library primitive, used at gen_consts.py:12-59] *)
Definition mpf_of (prec : Z) (s : text) : Q := rnd prec (dec_lit s 0).
(** gen_consts.py:10 *)
Definition import_ctx : mpctx := set_dps 150.
(** gen_consts.py:16-17, 23-26, 33, 37-55, 58-59 *)
Definition const (s : string) : Q := mpf_of (mp_prec import_ctx) (txt s).

(** ---- the constants ---- *)
(** gen_consts.py:12. The literal has 100001 characters; the model has the first 202, the others are [tail]. *)
Definition pi_head : string := "3.14159265358979323846264338327950288419716939937510582097494459230781640628620899862803482534211706798214808651328230664709384460955058223172535940812848111745028410270193852110555964462294895493038196".
(** gen_consts.py:12 *)
Definition pi_const (tail : text) : Q := mpf_of (mp_prec import_ctx) (txt pi_head ++ tail).
(** gen_consts.py:20-21. The literal has 10001 characters; the model has the first 202, the others are [tail]. *)
Definition e_head : string := "2.71828182845904523536028747135266249775724709369995957496696762772407663035354759457138217852516642742746639193200305992181741359662904357290033429526059563073813232862794349076323382988075319525101901".
(** gen_consts.py:20-21 *)
Definition e_const (tail : text) : Q := mpf_of (mp_prec import_ctx) (txt e_head ++ tail).
(** gen_consts.py:15-17 *)
Definition percolation_texts : list string :=
  ["0.652703644666139302296566746461370407999248645631861225527517243735868355721970529156966773685200852";
   "0.347296355333860697703433253538629592000751354368138774472482756264131644278029470843033226314799148"]%string.
(** gen_consts.py:15-17 *)
Definition percolation_consts : list Q := map const percolation_texts.
(** gen_consts.py:22-26 *)
Definition feig_texts : list string :=
  ["0.832367236905316424849095446276104487378444151012251178801815537790651149061721299210574967325072848966217";
   "1.83125898493713148534217339787378162744129809037623796547741164647029628921518197466402695607431535931144";
   "2.8315090047407180144993675864514825103861092055443549309368086842363044614290970217463629831538000035030";
   "1.5546180470640874386344153591097097603679027104799317816179366813305881904302037128542124779889011575139"]%string.
(** gen_consts.py:22-26 *)
Definition feig_consts : list Q := map const feig_texts.
(** gen_consts.py:33 *)
Definition euler_masch_text : string := "0.577215664901532860606512090082402431042159335939923598805767234884867726777664670936947063291746749".
(** gen_consts.py:33 *)
Definition euler_masch_const : Q := const euler_masch_text.
(** gen_consts.py:36-55 *)
Definition zeta_texts : list (Z * string) :=
  [(2, "1.64493406684822643647241516664602518921894990120679843773555822937000747040320087383362890061975870");
   (3, "1.20205690315959428539973816151144999076498629234049888179227155534183820578631309018645587360933525814619915");
   (4, "1.08232323371113819151600369654116790277475095191872690768297621544412061618696884655690963594169991");
   (5, "1.03692775514336992633136548645703416805708091950191281197419267790380358978628148456004310655713333");
   (6, "1.01734306198444913971451792979092052790181749003285356184240866400433218290195789788277397793853517");
   (7, "1.00834927738192282683979754984979675959986356056523870641728313657160147831735573534609696891385132");
   (8, "1.00407735619794433937868523850865246525896079064985002032911020265258295257474881439528723037237197");
   (9, "1.00200839282608221441785276923241206048560585139488875654859661590978505339025839895039306912716958");
   (10, "1.00099457512781808533714595890031901700601953156447751725778899463629146515191295439704196861038565");
   (11, "1.00049418860411946455870228252646993646860643575820861711914143610005405979821981470259184302356063");
   (12, "1.00024608655330804829863799804773967096041608845800340453304095213325201968194091304904280855190069");
   (13, "1.00012271334757848914675183652635739571427510589550984513670267162089672682984420981289271395326813");
   (14, "1.00006124813505870482925854510513533374748169616915454948275520225286294102317742087665978297199846");
   (15, "1.00003058823630702049355172851064506258762794870685817750656993289333226715634227957307233434701754");
   (16, "1.00001528225940865187173257148763672202323738899047153115310520358878708702795315178628560484632246");
   (17, "1.00000763719763789976227360029356302921308824909026267909537984397293564329028245934208173863691667");
   (18, "1.00000381729326499983985646164462193973045469721895333114317442998763003954265004563800196866898964");
   (19, "1.00000190821271655393892565695779510135325857114483863023593304676182394970534130931266422711807630");
   (20, "1.00000095396203387279611315203868344934594379418741059575005648985113751373114390025783609797638747")]%string.
(** gen_consts.py:36-55 *)
Definition zeta_consts : list (Z * Q) := map (fun '(i, s) => (i, const s)) zeta_texts.
(** gen_consts.py:58-59 *)
Definition phi_text : string := "1.61803398874989484820458683436563811772030917980576286213544862270526046281890244970720720418939113748475".
(** gen_consts.py:58-59 *)
Definition phi_const : Q := const phi_text.
(** gen_consts.py:62 *)
Definition apery_const : res Q := match d_get Z.eqb zeta_consts 3 with Some q => Ok q | None => Raise KeyError end.

(** ---- the generators ---- *)
(** What a caller may pass: None or an int. Other arguments are not modelled. [gen_consts.py:72, 85, 95, 105] *)
Inductive garg := GNone | GInt (z : Z).
(** The functions under the decorator (gen_consts.py:79-118): no argument, an index into a list, or a key. *)
Inductive gbody := GConst (c : Q) | GList (l : list Q) | GDict (l : list (Z * Q)).
(** gen_consts.py:65-67 *)
Definition set_precision (prec : garg) (m : mpctx) : mpctx :=
  match prec with GInt z => if z =? 0 then m else set_dps z | GNone => m end.
(** Calling the undecorated function. Too few or too many arguments are a TypeError; so is indexing a list with None.
    Multiplying with dec(1) rounds to the working precision. Keyword arguments are not modelled. [gen_consts.py:74, 79-118] *)
Definition call_body (m : mpctx) (b : gbody) (args : list garg) : res Q :=
  match b, args with
  | GConst c, [] => Ok (rnd (mp_prec m) c)
  | GList l, [GInt i] => let* c := py_nth l i in Ok (rnd (mp_prec m) c)
  | GDict l, [GInt i] => match d_get Z.eqb l i with Some c => Ok (rnd (mp_prec m) c) | None => Raise KeyError end
  | GDict _, [GNone] => Raise KeyError
  | _, _ => Raise TypeError
  end.
(** gen_consts.py:70-76: the wrapper takes its first positional argument for the precision. The context it leaves, and
    the outcome. *)
Definition call_gen (b : gbody) (args : list garg) (m : mpctx) : mpctx * res Q :=
  let prec := match args with a :: _ => a | [] => GNone end in
  let m' := set_precision prec m in
  (m', call_body m' b (tl args)).
