(** The texts of the stored results, results/OldResults, byte for byte; see OldResults_Model for the results in them. No proofs. *)
From Coq Require Import Ascii String List.
From Verif Require Import PyBase Hashtable_Model.
Import ListNotations.
Local Open Scope list_scope.

(** results/OldResults/results.csv:1-14 *)
Definition csv_results : text := txt "postproc_func,1/x
""a poly2sympoly [a_0, a_1, ...]"",""b poly2sympoly  [b_0, b_1, ...]"",u,l,c,d,postfunc(cont_frac),(u/pi+pi/l+c)/d
""(-1, -2, 0)"",""(0, 0, 1)"",0,-4,0,1,-0.78539816339744830961566084581987572104929234984356,-0.78539816339744830961566084581987572104929234984378
""(1, 2, 0)"",""(0, 0, 1)"",0,-4,0,1,0.78539816339744830961566084581987572104929234984356,-0.78539816339744830961566084581987572104929234984378
""(-1, -2, 0)"",""(0, 0, 1)"",0,-2,0,2,-0.78539816339744830961566084581987572104929234984356,-0.7853981633974483096156608458198757210492923498438
""(1, 2, 0)"",""(0, 0, 1)"",0,-2,0,2,0.78539816339744830961566084581987572104929234984356,-0.7853981633974483096156608458198757210492923498438
""(-1, -2, 0)"",""(0, 0, 1)"",0,-1,0,4,-0.78539816339744830961566084581987572104929234984356,-0.78539816339744830961566084581987572104929234984378
""(1, 2, 0)"",""(0, 0, 1)"",0,-1,0,4,0.78539816339744830961566084581987572104929234984356,-0.78539816339744830961566084581987572104929234984378
""(-1, -2, 0)"",""(0, 0, 1)"",0,1,0,4,-0.78539816339744830961566084581987572104929234984356,0.78539816339744830961566084581987572104929234984378
""(1, 2, 0)"",""(0, 0, 1)"",0,1,0,4,0.78539816339744830961566084581987572104929234984356,0.78539816339744830961566084581987572104929234984378
""(-1, -2, 0)"",""(0, 0, 1)"",0,2,0,2,-0.78539816339744830961566084581987572104929234984356,0.7853981633974483096156608458198757210492923498438
""(1, 2, 0)"",""(0, 0, 1)"",0,2,0,2,0.78539816339744830961566084581987572104929234984356,0.7853981633974483096156608458198757210492923498438
""(-1, -2, 0)"",""(0, 0, 1)"",0,4,0,1,-0.78539816339744830961566084581987572104929234984356,0.78539816339744830961566084581987572104929234984378
""(1, 2, 0)"",""(0, 0, 1)"",0,4,0,1,0.78539816339744830961566084581987572104929234984356,0.78539816339744830961566084581987572104929234984378
".
(** results/OldResults/results_0005_120418.csv:1-16 *)
Definition csv_results_0005_120418 : text := txt "postproc_funcs,""['safe_inverse', 'lambda x: x', 'lambda x: x**2', 'lambda x: safe_inverse(x**2)']"",target_name,e
""a poly2sympoly [a_0, a_1, ...]"",""b poly2sympoly  [b_0, b_1, ...]"",procpost_func index,u,l,c,d,convergence type,convergence rate,postfunc(cont_frac),(u/pi+pi/l+c)/d
""((-2, -2, 0),)"",""((0, 4, 0),)"",0,0,-2,1,1,exp,""(Decimal('14.441338721759641745924664693734018026430898513324'), Decimal('11.355648555860237711614189091168114521397756769934'))"",-0.35914091422952261768014373567633124887862354684998,-0.3591409142295226176801437356763312488786235468500
""((-2, -1, 0),)"",""((2, 1, 0),)"",0,0,-2,1,1,exp,""(Decimal('14.449787544422338992524292865006942544172727308386'), Decimal('11.403734602366544261661609005891031502298614152221'))"",-0.35914091422952261768014373567633124887862354684998,-0.3591409142295226176801437356763312488786235468500
""((0, -2, 0),)"",""((0, 4, 0),)"",0,0,-1,1,2,exp,""(Decimal('23.482964083473088559938139915876069326957993593632'), Decimal('420418.93773305742097178047475443645631685783694467'))"",-0.85914091422952261768014373567633124887862354684997,-0.8591409142295226176801437356763312488786235468500
""((-3, -1, 0),)"",""((0, -1, 0),)"",1,0,-1,0,1,exp,""(Decimal('15.201514620495750346649629948682734635404745284671'), Decimal('1.0257045674516218830400914009550781421157521555448'))"",-2.7182818284590452353602874713526624977572470937000,-2.7182818284590452353602874713526624977572470937000
""((-1, -1, 0),)"",""((0, 1, 0),)"",0,0,-1,2,1,exp,""(Decimal('14.441338713876200494553640500838754841965918343970'), Decimal('5.6778242555442892675291819781335797790806183792053'))"",-0.71828182845904523536028747135266249775724709369995,-0.7182818284590452353602874713526624977572470937000
""((-1, -1, 0),)"",""((1, 1, 0),)"",1,0,-1,1,1,exp,""(Decimal('23.834416520271698265932673960270365701634225582334'), Decimal('46409.105698005712995552850542647513709987373060207'))"",-1.7182818284590452353602874713526624977572470937000,-1.7182818284590452353602874713526624977572470937000
""((-1, 2, 4),)"",""((0, 6, -4),)"",0,0,-1,1,1,fast,0,-1.7182818284590452353602874713526624977572470936999,-1.7182818284590452353602874713526624977572470937000
""((0, -1, 0),)"",""((0, 1, 0),)"",0,0,-1,1,1,exp,""(Decimal('23.482948312305243651401327892900316850160481823661'), Decimal('210207.57504713153393044174456675564775463277247807'))"",-1.7182818284590452353602874713526624977572470936999,-1.7182818284590452353602874713526624977572470937000
""((1, 1, 0),)"",""((1, 1, 0),)"",1,0,-1,1,-1,exp,""(Decimal('23.834416520271698265932673960270365701634225582334'), Decimal('46409.105698005712995552850542647513709987373060207'))"",1.7182818284590452353602874713526624977572470937000,1.7182818284590452353602874713526624977572470937000
""((3, 1, 0),)"",""((0, -1, 0),)"",1,0,-1,0,-1,exp,""(Decimal('15.201514620495750346649629948682734635404745284671'), Decimal('1.0257045674516218830400914009550781421157521555448'))"",2.7182818284590452353602874713526624977572470937000,2.7182818284590452353602874713526624977572470937000
""((-3, -1, 0),)"",""((0, -1, 0),)"",1,0,1,0,-1,exp,""(Decimal('15.201514620495750346649629948682734635404745284671'), Decimal('1.0257045674516218830400914009550781421157521555448'))"",-2.7182818284590452353602874713526624977572470937000,-2.7182818284590452353602874713526624977572470937000
""((-1, -1, 0),)"",""((1, 1, 0),)"",1,0,1,-1,-1,exp,""(Decimal('23.834416520271698265932673960270365701634225582334'), Decimal('46409.105698005712995552850542647513709987373060207'))"",-1.7182818284590452353602874713526624977572470937000,-1.7182818284590452353602874713526624977572470937000
""((1, 1, 0),)"",""((1, 1, 0),)"",1,0,1,-1,1,exp,""(Decimal('23.834416520271698265932673960270365701634225582334'), Decimal('46409.105698005712995552850542647513709987373060207'))"",1.7182818284590452353602874713526624977572470937000,1.7182818284590452353602874713526624977572470937000
""((3, 1, 0),)"",""((0, -1, 0),)"",1,0,1,0,1,exp,""(Decimal('15.201514620495750346649629948682734635404745284671'), Decimal('1.0257045674516218830400914009550781421157521555448'))"",2.7182818284590452353602874713526624977572470937000,2.7182818284590452353602874713526624977572470937000
".
(** results/OldResults/results_0117_050418.csv:1-3 *)
Definition csv_results_0117_050418 : text := txt "postproc_funcs,""['safe_inverse', 'lambda x: x', 'lambda x: x**2']"",target_name,pi
""a poly2sympoly [a_0, a_1, ...]"",""b poly2sympoly  [b_0, b_1, ...]"",procpost_func index,u,l,c,d,convergence type,convergence rate,postfunc(cont_frac),(u/pi+pi/l+c)/d
""((-1, -2, 0),)"",""((0, 0, 1),)"",0,0,-2,0,2,exp,""(Decimal('5.8272605951394884305822020761629026984372290256733'), Decimal('0.35726437084312770360148516203066730073389674632968'))"",-0.78539816339744830961566084581987572104929234984375,-0.7853981633974483096156608458198757210492923498438
".
(** results/OldResults/results_0301_080418.csv:1-6 *)
Definition csv_results_0301_080418 : text := txt "postproc_funcs,""['lambda x: dec_sin(x/18)', 'lambda x: 2*dec_sin(x/18)', 'lambda x: dec_sin(2*safe_inverse(x)/9)', 'lambda x: 2*dec_sin(2*safe_inverse(x)/9)']"",target_name,""percolation, 0""
""a poly2sympoly [a_0, a_1, ...]"",""b poly2sympoly  [b_0, b_1, ...]"",procpost_func index,u,l,c,d,convergence type,convergence rate,postfunc(cont_frac),(u/pi+pi/l+c)/d
""((-1, -2, 0),)"",""((0, 0, 1),)"",2,0,-1,1,-2,exp,""(Decimal('5.5520662719116079794771414568348701533613704620851'), Decimal('0.050012045739215719809162528386529027011960858897241'))"",-0.17364817766693034885171662676931479600037567718405,-0.17364817766693034885171662676931479600037567718407
""((1, 2, 0),)"",""((0, 0, 1),)"",2,0,-1,1,2,exp,""(Decimal('5.5520662719116079794771414568348701533613704620851'), Decimal('0.050012045739215719809162528386529027011960858897241'))"",0.17364817766693034885171662676931479600037567718405,0.17364817766693034885171662676931479600037567718407
""((-1, -2, 0),)"",""((0, 0, 1),)"",2,0,1,-1,2,exp,""(Decimal('5.5520662719116079794771414568348701533613704620851'), Decimal('0.050012045739215719809162528386529027011960858897241'))"",-0.17364817766693034885171662676931479600037567718405,-0.17364817766693034885171662676931479600037567718407
""((1, 2, 0),)"",""((0, 0, 1),)"",2,0,1,-1,-2,exp,""(Decimal('5.5520662719116079794771414568348701533613704620851'), Decimal('0.050012045739215719809162528386529027011960858897241'))"",0.17364817766693034885171662676931479600037567718405,0.17364817766693034885171662676931479600037567718407
".
(** results/OldResults/results_1114_070418.csv:1-3 *)
Definition csv_results_1114_070418 : text := txt "postproc_funcs,""['safe_inverse', 'lambda x: x', 'lambda x: x**2', 'lambda x: safe_inverse(x**2)']"",target_name,pi
""a poly2sympoly [a_0, a_1, ...]"",""b poly2sympoly  [b_0, b_1, ...]"",procpost_func index,u,l,c,d,convergence type,convergence rate,postfunc(cont_frac),(u/pi+pi/l+c)/d
""((-1, -2, 0),)"",""((0, 0, 1),)"",0,0,-4,0,1,exp,""(Decimal('5.5520662719116079794771414568348701533613704620851'), Decimal('0.050012045739215719809162528386529027011960858897241'))"",-0.78539816339744830961566084581987572104929234984375,-0.78539816339744830961566084581987572104929234984378
".
(** results/OldResults/results_1205_230418.csv:1-13 *)
Definition csv_results_1205_230418 : text := txt "postproc_funcs,""['safe_inverse', 'lambda x: x', 'lambda x: x**2', 'lambda x: safe_inverse(x**2)', 'safe_sqrt']"",target_name,e
""a poly2sympoly [a_0, a_1, ...]"",""b poly2sympoly  [b_0, b_1, ...]"",procpost_func index,u,l,c,d,convergence type,convergence rate,postfunc(cont_frac),(u/pi+pi/l+c)/d
""((-2, -1, 0),)"",""((2, 1, 0),)"",0,0,-2,1,1,exp,""(Decimal('8.072656144675999206267452488'), Decimal('0.3656235857335240681970083904'))"",-0.3591409142295226176801437357,-0.359140914229522617680143736
""((-3, -1, 0),)"",""((0, -1, 0),)"",1,0,-1,0,1,fast,0,-2.718281828459045235360287471,-2.718281828459045235360287471
""((-1, -1, 0),)"",""((0, 1, 0),)"",0,0,-1,2,1,exp,""(Decimal('7.745636494871616130114539967'), Decimal('0.1671798697129140385356112433'))"",-0.7182818284590452353602874716,-0.718281828459045235360287471
""((-1, -1, 0),)"",""((1, 1, 0),)"",1,0,-1,1,1,exp,""(Decimal('7.860600973208144526533092166'), Decimal('0.5449367820721974172423383178'))"",-1.718281828459045235360287471,-1.718281828459045235360287471
""((0, -1, 0),)"",""((0, 1, 0),)"",0,0,-1,1,1,exp,""(Decimal('8.001926035082984517568364136'), Decimal('1.970153102748392240241235122'))"",-1.718281828459045235360287471,-1.718281828459045235360287471
""((1, 1, 0),)"",""((1, 1, 0),)"",1,0,-1,1,-1,exp,""(Decimal('7.860600973208144526533092166'), Decimal('0.5449367820721974172423383178'))"",1.718281828459045235360287471,1.718281828459045235360287471
""((3, 1, 0),)"",""((0, -1, 0),)"",1,0,-1,0,-1,fast,0,2.718281828459045235360287471,2.718281828459045235360287471
""((-3, -1, 0),)"",""((0, -1, 0),)"",1,0,1,0,-1,fast,0,-2.718281828459045235360287471,-2.718281828459045235360287471
""((-1, -1, 0),)"",""((1, 1, 0),)"",1,0,1,-1,-1,exp,""(Decimal('7.860600973208144526533092166'), Decimal('0.5449367820721974172423383178'))"",-1.718281828459045235360287471,-1.718281828459045235360287471
""((1, 1, 0),)"",""((1, 1, 0),)"",1,0,1,-1,1,exp,""(Decimal('7.860600973208144526533092166'), Decimal('0.5449367820721974172423383178'))"",1.718281828459045235360287471,1.718281828459045235360287471
""((3, 1, 0),)"",""((0, -1, 0),)"",1,0,1,0,1,fast,0,2.718281828459045235360287471,2.718281828459045235360287471
".
(** results/OldResults/results_1208_230418.csv:1-13 *)
Definition csv_results_1208_230418 : text := txt "postproc_funcs,""['safe_inverse', 'lambda x: x', 'lambda x: x**2', 'lambda x: safe_inverse(x**2)', 'safe_sqrt']"",target_name,e
""a poly2sympoly [a_0, a_1, ...]"",""b poly2sympoly  [b_0, b_1, ...]"",procpost_func index,u,l,c,d,convergence type,convergence rate,postfunc(cont_frac),(u/pi+pi/l+c)/d
""((-2, -1, 0),)"",""((2, 1, 0),)"",0,0,-2,1,1,exp,""(Decimal('8.072656144675999206267452488'), Decimal('0.3656235857335240681970083904'))"",-0.3591409142295226176801437357,-0.359140914229522617680143736
""((-3, -1, 0),)"",""((0, -1, 0),)"",1,0,-1,0,1,fast,0,-2.718281828459045235360287471,-2.718281828459045235360287471
""((-1, -1, 0),)"",""((0, 1, 0),)"",0,0,-1,2,1,exp,""(Decimal('7.745636494871616130114539967'), Decimal('0.1671798697129140385356112433'))"",-0.7182818284590452353602874716,-0.718281828459045235360287471
""((-1, -1, 0),)"",""((1, 1, 0),)"",1,0,-1,1,1,exp,""(Decimal('7.860600973208144526533092166'), Decimal('0.5449367820721974172423383178'))"",-1.718281828459045235360287471,-1.718281828459045235360287471
""((0, -1, 0),)"",""((0, 1, 0),)"",0,0,-1,1,1,exp,""(Decimal('8.001926035082984517568364136'), Decimal('1.970153102748392240241235122'))"",-1.718281828459045235360287471,-1.718281828459045235360287471
""((1, 1, 0),)"",""((1, 1, 0),)"",1,0,-1,1,-1,exp,""(Decimal('7.860600973208144526533092166'), Decimal('0.5449367820721974172423383178'))"",1.718281828459045235360287471,1.718281828459045235360287471
""((3, 1, 0),)"",""((0, -1, 0),)"",1,0,-1,0,-1,fast,0,2.718281828459045235360287471,2.718281828459045235360287471
""((-3, -1, 0),)"",""((0, -1, 0),)"",1,0,1,0,-1,fast,0,-2.718281828459045235360287471,-2.718281828459045235360287471
""((-1, -1, 0),)"",""((1, 1, 0),)"",1,0,1,-1,-1,exp,""(Decimal('7.860600973208144526533092166'), Decimal('0.5449367820721974172423383178'))"",-1.718281828459045235360287471,-1.718281828459045235360287471
""((1, 1, 0),)"",""((1, 1, 0),)"",1,0,1,-1,1,exp,""(Decimal('7.860600973208144526533092166'), Decimal('0.5449367820721974172423383178'))"",1.718281828459045235360287471,1.718281828459045235360287471
""((3, 1, 0),)"",""((0, -1, 0),)"",1,0,1,0,1,fast,0,2.718281828459045235360287471,2.718281828459045235360287471
".
(** results/OldResults/results_1303_230418.csv:1-13 *)
Definition csv_results_1303_230418 : text := txt "postproc_funcs,""['safe_inverse', 'lambda x: x', 'lambda x: x**2', 'lambda x: safe_inverse(x**2)', 'safe_sqrt']"",target_name,e
""a poly2sympoly [a_0, a_1, ...]"",""b poly2sympoly  [b_0, b_1, ...]"",procpost_func index,u,l,c,d,convergence type,convergence rate,postfunc(cont_frac),(u/pi+pi/l+c)/d
""((-2, -1, 0),)"",""((2, 1, 0),)"",0,0,-2,1,1,exp,""(Decimal('8.072656144675999206267452488'), Decimal('0.3656235857335240681970083904'))"",-0.3591409142295226176801437357,-0.359140914229522617680143736
""((-3, -1, 0),)"",""((0, -1, 0),)"",1,0,-1,0,1,fast,0,-2.718281828459045235360287471,-2.718281828459045235360287471
""((-1, -1, 0),)"",""((0, 1, 0),)"",0,0,-1,2,1,exp,""(Decimal('7.745636494871616130114539967'), Decimal('0.1671798697129140385356112433'))"",-0.7182818284590452353602874716,-0.718281828459045235360287471
""((-1, -1, 0),)"",""((1, 1, 0),)"",1,0,-1,1,1,exp,""(Decimal('7.860600973208144526533092166'), Decimal('0.5449367820721974172423383178'))"",-1.718281828459045235360287471,-1.718281828459045235360287471
""((0, -1, 0),)"",""((0, 1, 0),)"",0,0,-1,1,1,exp,""(Decimal('8.001926035082984517568364136'), Decimal('1.970153102748392240241235122'))"",-1.718281828459045235360287471,-1.718281828459045235360287471
""((1, 1, 0),)"",""((1, 1, 0),)"",1,0,-1,1,-1,exp,""(Decimal('7.860600973208144526533092166'), Decimal('0.5449367820721974172423383178'))"",1.718281828459045235360287471,1.718281828459045235360287471
""((3, 1, 0),)"",""((0, -1, 0),)"",1,0,-1,0,-1,fast,0,2.718281828459045235360287471,2.718281828459045235360287471
""((-3, -1, 0),)"",""((0, -1, 0),)"",1,0,1,0,-1,fast,0,-2.718281828459045235360287471,-2.718281828459045235360287471
""((-1, -1, 0),)"",""((1, 1, 0),)"",1,0,1,-1,-1,exp,""(Decimal('7.860600973208144526533092166'), Decimal('0.5449367820721974172423383178'))"",-1.718281828459045235360287471,-1.718281828459045235360287471
""((1, 1, 0),)"",""((1, 1, 0),)"",1,0,1,-1,1,exp,""(Decimal('7.860600973208144526533092166'), Decimal('0.5449367820721974172423383178'))"",1.718281828459045235360287471,1.718281828459045235360287471
""((3, 1, 0),)"",""((0, -1, 0),)"",1,0,1,0,1,fast,0,2.718281828459045235360287471,2.718281828459045235360287471
".
(** results/OldResults/results_1309_230418.csv:1-13 *)
Definition csv_results_1309_230418 : text := txt "postproc_funcs,""['safe_inverse', 'lambda x: x', 'lambda x: x**2', 'lambda x: safe_inverse(x**2)', 'safe_sqrt']"",target_name,e
""a poly2sympoly [a_0, a_1, ...]"",""b poly2sympoly  [b_0, b_1, ...]"",procpost_func index,u,l,c,d,convergence type,convergence rate,postfunc(cont_frac),(u/pi+pi/l+c)/d
""((-2, -1, 0),)"",""((2, 1, 0),)"",0,0,-2,1,1,exp,""(Decimal('8.072656144675999206267452488'), Decimal('0.3656235857335240681970083904'))"",-0.3591409142295226176801437357,-0.359140914229522617680143736
""((-3, -1, 0),)"",""((0, -1, 0),)"",1,0,-1,0,1,fast,0,-2.718281828459045235360287471,-2.718281828459045235360287471
""((-1, -1, 0),)"",""((0, 1, 0),)"",0,0,-1,2,1,exp,""(Decimal('7.745636494871616130114539967'), Decimal('0.1671798697129140385356112433'))"",-0.7182818284590452353602874716,-0.718281828459045235360287471
""((-1, -1, 0),)"",""((1, 1, 0),)"",1,0,-1,1,1,exp,""(Decimal('7.860600973208144526533092166'), Decimal('0.5449367820721974172423383178'))"",-1.718281828459045235360287471,-1.718281828459045235360287471
""((0, -1, 0),)"",""((0, 1, 0),)"",0,0,-1,1,1,exp,""(Decimal('8.001926035082984517568364136'), Decimal('1.970153102748392240241235122'))"",-1.718281828459045235360287471,-1.718281828459045235360287471
""((1, 1, 0),)"",""((1, 1, 0),)"",1,0,-1,1,-1,exp,""(Decimal('7.860600973208144526533092166'), Decimal('0.5449367820721974172423383178'))"",1.718281828459045235360287471,1.718281828459045235360287471
""((3, 1, 0),)"",""((0, -1, 0),)"",1,0,-1,0,-1,fast,0,2.718281828459045235360287471,2.718281828459045235360287471
""((-3, -1, 0),)"",""((0, -1, 0),)"",1,0,1,0,-1,fast,0,-2.718281828459045235360287471,-2.718281828459045235360287471
""((-1, -1, 0),)"",""((1, 1, 0),)"",1,0,1,-1,-1,exp,""(Decimal('7.860600973208144526533092166'), Decimal('0.5449367820721974172423383178'))"",-1.718281828459045235360287471,-1.718281828459045235360287471
""((1, 1, 0),)"",""((1, 1, 0),)"",1,0,1,-1,1,exp,""(Decimal('7.860600973208144526533092166'), Decimal('0.5449367820721974172423383178'))"",1.718281828459045235360287471,1.718281828459045235360287471
""((3, 1, 0),)"",""((0, -1, 0),)"",1,0,1,0,1,fast,0,2.718281828459045235360287471,2.718281828459045235360287471
".
(** results/OldResults/results_1334_230418.csv:1-13 *)
Definition csv_results_1334_230418 : text := txt "postproc_funcs,""['safe_inverse', 'lambda x: x', 'lambda x: x**2', 'lambda x: safe_inverse(x**2)', 'safe_sqrt']"",target_name,e
""a poly2sympoly [a_0, a_1, ...]"",""b poly2sympoly  [b_0, b_1, ...]"",procpost_func index,u,l,c,d,convergence type,convergence rate,postfunc(cont_frac),(u/pi+pi/l+c)/d
""((-2, -1, 0),)"",""((2, 1, 0),)"",0,0,-2,1,1,exp,""(Decimal('14.449787544422338992524292865006942544172727308386'), Decimal('11.403734602366544261661609005891031502298614152221'))"",-0.35914091422952261768014373567633124887862354684998,-0.3591409142295226176801437356763312488786235468500
""((-3, -1, 0),)"",""((0, -1, 0),)"",1,0,-1,0,1,exp,""(Decimal('15.201514620495750346649629948682734635404745284671'), Decimal('1.0257045674516218830400914009550781421157521555448'))"",-2.7182818284590452353602874713526624977572470937000,-2.7182818284590452353602874713526624977572470937000
""((-1, -1, 0),)"",""((0, 1, 0),)"",0,0,-1,2,1,exp,""(Decimal('14.441338713876200494553640500838754841965918343970'), Decimal('5.6778242555442892675291819781335797790806183792053'))"",-0.71828182845904523536028747135266249775724709369995,-0.7182818284590452353602874713526624977572470937000
""((-1, -1, 0),)"",""((1, 1, 0),)"",1,0,-1,1,1,exp,""(Decimal('23.834416520271698265932673960270365701634225582334'), Decimal('46409.105698005712995552850542647513709987373060207'))"",-1.7182818284590452353602874713526624977572470937000,-1.7182818284590452353602874713526624977572470937000
""((0, -1, 0),)"",""((0, 1, 0),)"",0,0,-1,1,1,exp,""(Decimal('23.482948312305243651401327892900316850160481823661'), Decimal('210207.57504713153393044174456675564775463277247807'))"",-1.7182818284590452353602874713526624977572470936999,-1.7182818284590452353602874713526624977572470937000
""((1, 1, 0),)"",""((1, 1, 0),)"",1,0,-1,1,-1,exp,""(Decimal('23.834416520271698265932673960270365701634225582334'), Decimal('46409.105698005712995552850542647513709987373060207'))"",1.7182818284590452353602874713526624977572470937000,1.7182818284590452353602874713526624977572470937000
""((3, 1, 0),)"",""((0, -1, 0),)"",1,0,-1,0,-1,exp,""(Decimal('15.201514620495750346649629948682734635404745284671'), Decimal('1.0257045674516218830400914009550781421157521555448'))"",2.7182818284590452353602874713526624977572470937000,2.7182818284590452353602874713526624977572470937000
""((-3, -1, 0),)"",""((0, -1, 0),)"",1,0,1,0,-1,exp,""(Decimal('15.201514620495750346649629948682734635404745284671'), Decimal('1.0257045674516218830400914009550781421157521555448'))"",-2.7182818284590452353602874713526624977572470937000,-2.7182818284590452353602874713526624977572470937000
""((-1, -1, 0),)"",""((1, 1, 0),)"",1,0,1,-1,-1,exp,""(Decimal('23.834416520271698265932673960270365701634225582334'), Decimal('46409.105698005712995552850542647513709987373060207'))"",-1.7182818284590452353602874713526624977572470937000,-1.7182818284590452353602874713526624977572470937000
""((1, 1, 0),)"",""((1, 1, 0),)"",1,0,1,-1,1,exp,""(Decimal('23.834416520271698265932673960270365701634225582334'), Decimal('46409.105698005712995552850542647513709987373060207'))"",1.7182818284590452353602874713526624977572470937000,1.7182818284590452353602874713526624977572470937000
""((3, 1, 0),)"",""((0, -1, 0),)"",1,0,1,0,1,exp,""(Decimal('15.201514620495750346649629948682734635404745284671'), Decimal('1.0257045674516218830400914009550781421157521555448'))"",2.7182818284590452353602874713526624977572470937000,2.7182818284590452353602874713526624977572470937000
".
(** results/OldResults/results_1336_230418.csv:1-13 *)
Definition csv_results_1336_230418 : text := txt "postproc_funcs,""['safe_inverse', 'lambda x: x', 'lambda x: x**2', 'lambda x: safe_inverse(x**2)', 'safe_sqrt']"",target_name,e
""a poly2sympoly [a_0, a_1, ...]"",""b poly2sympoly  [b_0, b_1, ...]"",procpost_func index,u,l,c,d,convergence type,convergence rate,postfunc(cont_frac),(u/pi+pi/l+c)/d
""((-2, -1, 0),)"",""((2, 1, 0),)"",0,0,-2,1,1,exp,""(Decimal('8.072656144675999206267452488'), Decimal('0.3656235857335240681970083904'))"",-0.3591409142295226176801437357,-0.359140914229522617680143736
""((-3, -1, 0),)"",""((0, -1, 0),)"",1,0,-1,0,1,fast,0,-2.718281828459045235360287471,-2.718281828459045235360287471
""((-1, -1, 0),)"",""((0, 1, 0),)"",0,0,-1,2,1,exp,""(Decimal('7.745636494871616130114539967'), Decimal('0.1671798697129140385356112433'))"",-0.7182818284590452353602874716,-0.718281828459045235360287471
""((-1, -1, 0),)"",""((1, 1, 0),)"",1,0,-1,1,1,exp,""(Decimal('7.860600973208144526533092166'), Decimal('0.5449367820721974172423383178'))"",-1.718281828459045235360287471,-1.718281828459045235360287471
""((0, -1, 0),)"",""((0, 1, 0),)"",0,0,-1,1,1,exp,""(Decimal('8.001926035082984517568364136'), Decimal('1.970153102748392240241235122'))"",-1.718281828459045235360287471,-1.718281828459045235360287471
""((1, 1, 0),)"",""((1, 1, 0),)"",1,0,-1,1,-1,exp,""(Decimal('7.860600973208144526533092166'), Decimal('0.5449367820721974172423383178'))"",1.718281828459045235360287471,1.718281828459045235360287471
""((3, 1, 0),)"",""((0, -1, 0),)"",1,0,-1,0,-1,fast,0,2.718281828459045235360287471,2.718281828459045235360287471
""((-3, -1, 0),)"",""((0, -1, 0),)"",1,0,1,0,-1,fast,0,-2.718281828459045235360287471,-2.718281828459045235360287471
""((-1, -1, 0),)"",""((1, 1, 0),)"",1,0,1,-1,-1,exp,""(Decimal('7.860600973208144526533092166'), Decimal('0.5449367820721974172423383178'))"",-1.718281828459045235360287471,-1.718281828459045235360287471
""((1, 1, 0),)"",""((1, 1, 0),)"",1,0,1,-1,1,exp,""(Decimal('7.860600973208144526533092166'), Decimal('0.5449367820721974172423383178'))"",1.718281828459045235360287471,1.718281828459045235360287471
""((3, 1, 0),)"",""((0, -1, 0),)"",1,0,1,0,1,fast,0,2.718281828459045235360287471,2.718281828459045235360287471
".
(** results/OldResults/results_1414_070418.csv:1-3 *)
Definition csv_results_1414_070418 : text := txt "postproc_funcs,""['safe_inverse', 'lambda x: x', 'lambda x: x**2', 'lambda x: safe_inverse(x**2)']"",target_name,pi
""a poly2sympoly [a_0, a_1, ...]"",""b poly2sympoly  [b_0, b_1, ...]"",procpost_func index,u,l,c,d,convergence type,convergence rate,postfunc(cont_frac),(u/pi+pi/l+c)/d
""((-1, -2, 0),)"",""((0, 0, 1),)"",0,0,-4,0,1,exp,""(Decimal('5.5520662719116079794771414568348701533613704620851'), Decimal('0.050012045739215719809162528386529027011960858897241'))"",-0.78539816339744830961566084581987572104929234984375,-0.78539816339744830961566084581987572104929234984378
".
(** results/OldResults/results_1517_050418.csv:1-2 *)
Definition csv_results_1517_050418 : text := txt "postproc_funcs,""['safe_inverse', 'lambda x: x', 'lambda x: x**2']"",target_name,euler
""a poly2sympoly [a_0, a_1, ...]"",""b poly2sympoly  [b_0, b_1, ...]"",procpost_func index,u,l,c,d,convergence type,convergence rate,postfunc(cont_frac),(u/pi+pi/l+c)/d
".
(** results/OldResults/results_1718_050418.csv:1-2 *)
Definition csv_results_1718_050418 : text := txt "postproc_funcs,""['safe_inverse', 'lambda x: x', 'lambda x: x**2', 'lambda x: safe_inverse(x**2)']"",target_name,euler
""a poly2sympoly [a_0, a_1, ...]"",""b poly2sympoly  [b_0, b_1, ...]"",procpost_func index,u,l,c,d,convergence type,convergence rate,postfunc(cont_frac),(u/pi+pi/l+c)/d
".
(** results/OldResults/results_2115_070418.csv:1-2 *)
Definition csv_results_2115_070418 : text := txt "postproc_funcs,""['safe_inverse', 'lambda x: x', 'lambda x: x**2', 'lambda x: safe_inverse(x**2)']"",target_name,euler_masch
""a poly2sympoly [a_0, a_1, ...]"",""b poly2sympoly  [b_0, b_1, ...]"",procpost_func index,u,l,c,d,convergence type,convergence rate,postfunc(cont_frac),(u/pi+pi/l+c)/d
".
(** results/OldResults/results_2218_070418.csv:1-2 *)
Definition csv_results_2218_070418 : text := txt "postproc_funcs,""['lambda x: x**3', 'lambda x: safe_inverse(x**3)', 'lambda x: x**4', 'lambda x: safe_inverse(x**4)', 'lambda x: x**5', 'lambda x: safe_inverse(x**5)']"",target_name,e
""a poly2sympoly [a_0, a_1, ...]"",""b poly2sympoly  [b_0, b_1, ...]"",procpost_func index,u,l,c,d,convergence type,convergence rate,postfunc(cont_frac),(u/pi+pi/l+c)/d
".
(** results/OldResults/results_2819_070418.csv:1-2 *)
Definition csv_results_2819_070418 : text := txt "postproc_funcs,""['safe_inverse', 'lambda x: x', 'lambda x: x**2', 'lambda x: safe_inverse(x**2)']"",target_name,""percolation, 0""
""a poly2sympoly [a_0, a_1, ...]"",""b poly2sympoly  [b_0, b_1, ...]"",procpost_func index,u,l,c,d,convergence type,convergence rate,postfunc(cont_frac),(u/pi+pi/l+c)/d
".
(** results/OldResults/results_3018_050418.csv:1-17 *)
Definition csv_results_3018_050418 : text := txt "postproc_funcs,""['safe_inverse', 'lambda x: x', 'lambda x: x**2', 'lambda x: safe_inverse(x**2)']"",target_name,pi
""a poly2sympoly [a_0, a_1, ...]"",""b poly2sympoly  [b_0, b_1, ...]"",procpost_func index,u,l,c,d,convergence type,convergence rate,postfunc(cont_frac),(u/pi+pi/l+c)/d
""((-1, -3, 0),)"",""((0, 3, -2),)"",0,0,-4,0,1,exp,""(Decimal('2.0773554934844206486249127430330260934056494001975'), Decimal('0.000014003267805103576962811972072938448960936204538011'))"",-0.78539816339744830961566084581987572104929234984375,-0.78539816339744830961566084581987572104929234984378
""((-1, -2, 0),)"",""((0, 0, 1),)"",0,0,-4,0,1,exp,""(Decimal('5.8272605951394884305822020761629026984372290256733'), Decimal('0.35726437084312770360148516203066730073389674632968'))"",-0.78539816339744830961566084581987572104929234984375,-0.78539816339744830961566084581987572104929234984378
""((-3, -2, 0),)"",""((0, 2, 1),)"",0,0,-2,1,2,exp,""(Decimal('5.8305250821362065315094132600966752592874174319904'), Decimal('0.48360364776332311507163923953010834822800085454878'))"",-0.28539816339744830961566084581987572104929234984378,-0.2853981633974483096156608458198757210492923498438
""((-3, -3, 0),)"",""((1, -1, -2),)"",1,0,-2,-1,1,exp,""(Decimal('2.0360261437134680497466776145709167546086011374355'), Decimal('0.0054637392857748546054467911417719615282023631520702'))"",-2.5707963267948966192313216916397514420985846996876,-2.5707963267948966192313216916397514420985846996876
""((-2, -3, 0),)"",""((0, 1, -2),)"",0,0,-2,1,1,exp,""(Decimal('2.0590959953786410672247614032003085659680343634266'), Decimal('0.00051661660180646493785191756913933589515297377898166'))"",-0.57079632679489661923132169163975144209858469968757,-0.5707963267948966192313216916397514420985846996876
""((-1, -3, 0),)"",""((0, 1, -2),)"",0,0,-2,0,1,exp,""(Decimal('2.0108305798541374520239012033151608484999842340640'), Decimal('0.062752608963042835267713381429727347285920918724181'))"",-1.5707963267948966192313216916397514420985846996875,-1.5707963267948966192313216916397514420985846996876
""((-1, 3, 0),)"",""((0, 3, -2),)"",0,0,-2,-2,1,exp,""(Decimal('1.9886941001262101564404873713983606329454937411611'), Decimal('0.77300805865743336744771302557586036900016709819925'))"",-3.5707963267948966192313216916397514420985846996875,-3.5707963267948966192313216916397514420985846996876
""((0, -3, 0),)"",""((0, 3, -2),)"",0,0,-2,-1,1,exp,""(Decimal('1.9695223308147038781621411428763573971026884002066'), Decimal('0.00011170230044209314649311132615042758397377772202977'))"",-2.5707963267948966192313216916397514420985846996875,-2.5707963267948966192313216916397514420985846996876
""((3, 3, 0),)"",""((1, -1, -2),)"",1,0,-2,-1,-1,exp,""(Decimal('2.0360261437134680497466776145709167546086011374355'), Decimal('0.0054637392857748546054467911417719615282023631520702'))"",2.5707963267948966192313216916397514420985846996876,2.5707963267948966192313216916397514420985846996876
""((-3, -3, 0),)"",""((1, -1, -2),)"",1,0,-1,-2,2,exp,""(Decimal('2.0360261437134680497466776145709167546086011374355'), Decimal('0.0054637392857748546054467911417719615282023631520702'))"",-2.5707963267948966192313216916397514420985846996876,-2.5707963267948966192313216916397514420985846996876
""((3, 3, 0),)"",""((1, -1, -2),)"",1,0,-1,-2,-2,exp,""(Decimal('2.0360261437134680497466776145709167546086011374355'), Decimal('0.0054637392857748546054467911417719615282023631520702'))"",2.5707963267948966192313216916397514420985846996876,2.5707963267948966192313216916397514420985846996876
""((-3, -3, 0),)"",""((1, -1, -2),)"",1,0,1,2,-2,exp,""(Decimal('2.0360261437134680497466776145709167546086011374355'), Decimal('0.0054637392857748546054467911417719615282023631520702'))"",-2.5707963267948966192313216916397514420985846996876,-2.5707963267948966192313216916397514420985846996876
""((3, 3, 0),)"",""((1, -1, -2),)"",1,0,1,2,2,exp,""(Decimal('2.0360261437134680497466776145709167546086011374355'), Decimal('0.0054637392857748546054467911417719615282023631520702'))"",2.5707963267948966192313216916397514420985846996876,2.5707963267948966192313216916397514420985846996876
""((-3, -3, 0),)"",""((1, -1, -2),)"",1,0,2,1,-1,exp,""(Decimal('2.0360261437134680497466776145709167546086011374355'), Decimal('0.0054637392857748546054467911417719615282023631520702'))"",-2.5707963267948966192313216916397514420985846996876,-2.5707963267948966192313216916397514420985846996876
""((3, 3, 0),)"",""((1, -1, -2),)"",1,0,2,1,1,exp,""(Decimal('2.0360261437134680497466776145709167546086011374355'), Decimal('0.0054637392857748546054467911417719615282023631520702'))"",2.5707963267948966192313216916397514420985846996876,2.5707963267948966192313216916397514420985846996876
".
(** results/OldResults/results_3113_100418.csv:1-2 *)
Definition csv_results_3113_100418 : text := txt "postproc_funcs,""['safe_inverse', 'lambda x: x', 'lambda x: x**2', 'lambda x: safe_inverse(x**2)']"",target_name,""percolation, 0""
""a poly2sympoly [a_0, a_1, ...]"",""b poly2sympoly  [b_0, b_1, ...]"",procpost_func index,u,l,c,d,convergence type,convergence rate,postfunc(cont_frac),(u/pi+pi/l+c)/d
".
(** results/OldResults/results_3122_070418.csv:1-2 *)
Definition csv_results_3122_070418 : text := txt "postproc_funcs,""['safe_inverse', 'lambda x: x', 'lambda x: x**2', 'lambda x: safe_inverse(x**2)']"",target_name,""percolation, 0""
""a poly2sympoly [a_0, a_1, ...]"",""b poly2sympoly  [b_0, b_1, ...]"",procpost_func index,u,l,c,d,convergence type,convergence rate,postfunc(cont_frac),(u/pi+pi/l+c)/d
".
(** results/OldResults/results_3519_070418.csv:1-2 *)
Definition csv_results_3519_070418 : text := txt "postproc_funcs,""['safe_inverse', 'lambda x: x', 'lambda x: x**2', 'lambda x: safe_inverse(x**2)']"",target_name,""percolation, 0""
""a poly2sympoly [a_0, a_1, ...]"",""b poly2sympoly  [b_0, b_1, ...]"",procpost_func index,u,l,c,d,convergence type,convergence rate,postfunc(cont_frac),(u/pi+pi/l+c)/d
".
(** results/OldResults/results_3719_070418.csv:1-2 *)
Definition csv_results_3719_070418 : text := txt "postproc_funcs,""['safe_inverse', 'lambda x: x', 'lambda x: x**2', 'lambda x: safe_inverse(x**2)']"",target_name,""percolation, 0""
""a poly2sympoly [a_0, a_1, ...]"",""b poly2sympoly  [b_0, b_1, ...]"",procpost_func index,u,l,c,d,convergence type,convergence rate,postfunc(cont_frac),(u/pi+pi/l+c)/d
".
(** results/OldResults/results_3819_070418.csv:1-2 *)
Definition csv_results_3819_070418 : text := txt "postproc_funcs,""['safe_inverse', 'lambda x: x', 'lambda x: x**2', 'lambda x: safe_inverse(x**2)']"",target_name,""percolation, 0""
""a poly2sympoly [a_0, a_1, ...]"",""b poly2sympoly  [b_0, b_1, ...]"",procpost_func index,u,l,c,d,convergence type,convergence rate,postfunc(cont_frac),(u/pi+pi/l+c)/d
".
(** results/OldResults/results_4019_070418.csv:1-2 *)
Definition csv_results_4019_070418 : text := txt "postproc_funcs,""['safe_inverse', 'lambda x: x', 'lambda x: x**2', 'lambda x: safe_inverse(x**2)']"",target_name,""percolation, 0""
""a poly2sympoly [a_0, a_1, ...]"",""b poly2sympoly  [b_0, b_1, ...]"",procpost_func index,u,l,c,d,convergence type,convergence rate,postfunc(cont_frac),(u/pi+pi/l+c)/d
".
(** results/OldResults/results_4200_080418.csv:1-2 *)
Definition csv_results_4200_080418 : text := txt "postproc_funcs,""['lambda x: dec_sin(x/18)', 'lambda x: 2*dec_sin(x/18)']"",target_name,""percolation, 1""
""a poly2sympoly [a_0, a_1, ...]"",""b poly2sympoly  [b_0, b_1, ...]"",procpost_func index,u,l,c,d,convergence type,convergence rate,postfunc(cont_frac),(u/pi+pi/l+c)/d
".
(** results/OldResults/results_4521_050418.csv:1-18 *)
Definition csv_results_4521_050418 : text := txt "postproc_funcs,""['safe_inverse', 'lambda x: x', 'lambda x: x**2', 'lambda x: safe_inverse(x**2)']"",target_name,pi
""a poly2sympoly [a_0, a_1, ...]"",""b poly2sympoly  [b_0, b_1, ...]"",procpost_func index,u,l,c,d,convergence type,convergence rate,postfunc(cont_frac),(u/pi+pi/l+c)/d
""((-2, -4, 0),)"",""((0, 0, 4),)"",0,0,-8,0,1,exp,""(Decimal('5.7043606782884460005619539584213830853619695150612'), Decimal('0.28868204918080479532529589333037467083354339972404'))"",-0.39269908169872415480783042290993786052464617492189,-0.39269908169872415480783042290993786052464617492189
""((-1, -3, 0),)"",""((0, 3, -2),)"",0,0,-4,0,1,exp,""(Decimal('2.0752334124869997309695431803096188234447979827454'), Decimal('0.000012115226814066644141373533032091195307475180843018'))"",-0.78539816339744830961566084581987572104929234984375,-0.78539816339744830961566084581987572104929234984378
""((-1, -2, 0),)"",""((0, 0, 1),)"",0,0,-4,0,1,exp,""(Decimal('5.5520662719116079794771414568348701533613704620851'), Decimal('0.050012045739215719809162528386529027011960858897241'))"",-0.78539816339744830961566084581987572104929234984375,-0.78539816339744830961566084581987572104929234984378
""((-3, -2, 0),)"",""((0, 2, 1),)"",0,0,-2,1,2,exp,""(Decimal('5.5927546452034493485180627018944079523584248491749'), Decimal('0.086806394802847497207795416430468008067816257312571'))"",-0.28539816339744830961566084581987572104929234984378,-0.2853981633974483096156608458198757210492923498438
""((-3, -3, 0),)"",""((1, -1, -2),)"",1,0,-2,-1,1,exp,""(Decimal('2.0364334581975886687564553989488264960834145719757'), Decimal('0.0056336422172074763301383911049003839400419521746383'))"",-2.5707963267948966192313216916397514420985846996876,-2.5707963267948966192313216916397514420985846996876
""((-2, -3, 0),)"",""((0, 1, -2),)"",0,0,-2,1,1,exp,""(Decimal('1.9690474042681353942274153074636435753241144846853'), Decimal('0.000014417960682885627251335827497608316925627534934713'))"",-0.57079632679489661923132169163975144209858469968757,-0.5707963267948966192313216916397514420985846996876
""((-1, -3, 0),)"",""((0, 1, -2),)"",0,0,-2,0,1,exp,""(Decimal('2.0109264776729759841279917831604812021146454546103'), Decimal('0.062657414871589625139407399762346564589292662942333'))"",-1.5707963267948966192313216916397514420985846996875,-1.5707963267948966192313216916397514420985846996876
""((-1, 3, 0),)"",""((0, 3, -2),)"",0,0,-2,-2,1,exp,""(Decimal('1.9889538469320156152466688387945126995546870724202'), Decimal('0.78814919120628653700073013840872172884166117528706'))"",-3.5707963267948966192313216916397514420985846996875,-3.5707963267948966192313216916397514420985846996876
""((0, -3, 0),)"",""((0, 3, -2),)"",0,0,-2,-1,1,exp,""(Decimal('2.0296624756336420651166786434908683879687164757356'), Decimal('0.0012482946560523558422958023408205306587098064864357'))"",-2.5707963267948966192313216916397514420985846996875,-2.5707963267948966192313216916397514420985846996876
""((3, 3, 0),)"",""((1, -1, -2),)"",1,0,-2,-1,-1,exp,""(Decimal('2.0364334581975886687564553989488264960834145719757'), Decimal('0.0056336422172074763301383911049003839400419521746383'))"",2.5707963267948966192313216916397514420985846996876,2.5707963267948966192313216916397514420985846996876
""((-3, -3, 0),)"",""((1, -1, -2),)"",1,0,-1,-2,2,exp,""(Decimal('2.0364334581975886687564553989488264960834145719757'), Decimal('0.0056336422172074763301383911049003839400419521746383'))"",-2.5707963267948966192313216916397514420985846996876,-2.5707963267948966192313216916397514420985846996876
""((3, 3, 0),)"",""((1, -1, -2),)"",1,0,-1,-2,-2,exp,""(Decimal('2.0364334581975886687564553989488264960834145719757'), Decimal('0.0056336422172074763301383911049003839400419521746383'))"",2.5707963267948966192313216916397514420985846996876,2.5707963267948966192313216916397514420985846996876
""((-3, -3, 0),)"",""((1, -1, -2),)"",1,0,1,2,-2,exp,""(Decimal('2.0364334581975886687564553989488264960834145719757'), Decimal('0.0056336422172074763301383911049003839400419521746383'))"",-2.5707963267948966192313216916397514420985846996876,-2.5707963267948966192313216916397514420985846996876
""((3, 3, 0),)"",""((1, -1, -2),)"",1,0,1,2,2,exp,""(Decimal('2.0364334581975886687564553989488264960834145719757'), Decimal('0.0056336422172074763301383911049003839400419521746383'))"",2.5707963267948966192313216916397514420985846996876,2.5707963267948966192313216916397514420985846996876
""((-3, -3, 0),)"",""((1, -1, -2),)"",1,0,2,1,-1,exp,""(Decimal('2.0364334581975886687564553989488264960834145719757'), Decimal('0.0056336422172074763301383911049003839400419521746383'))"",-2.5707963267948966192313216916397514420985846996876,-2.5707963267948966192313216916397514420985846996876
""((3, 3, 0),)"",""((1, -1, -2),)"",1,0,2,1,1,exp,""(Decimal('2.0364334581975886687564553989488264960834145719757'), Decimal('0.0056336422172074763301383911049003839400419521746383'))"",2.5707963267948966192313216916397514420985846996876,2.5707963267948966192313216916397514420985846996876
".
(** results/OldResults/results_4614_070418.csv:1-15 *)
Definition csv_results_4614_070418 : text := txt "postproc_funcs,""['safe_inverse', 'lambda x: x', 'lambda x: x**2', 'lambda x: safe_inverse(x**2)']"",target_name,e
""a poly2sympoly [a_0, a_1, ...]"",""b poly2sympoly  [b_0, b_1, ...]"",procpost_func index,u,l,c,d,convergence type,convergence rate,postfunc(cont_frac),(u/pi+pi/l+c)/d
""((-2, -2, 0),)"",""((0, 4, 0),)"",0,0,-2,1,1,exp,""(Decimal('14.441338721759641745924664693734018026430898513324'), Decimal('11.355648555860237711614189091168114521397756769934'))"",-0.35914091422952261768014373567633124887862354684998,-0.3591409142295226176801437356763312488786235468500
""((-2, -1, 0),)"",""((2, 1, 0),)"",0,0,-2,1,1,exp,""(Decimal('14.449787544422338992524292865006942544172727308386'), Decimal('11.403734602366544261661609005891031502298614152221'))"",-0.35914091422952261768014373567633124887862354684998,-0.3591409142295226176801437356763312488786235468500
""((0, -2, 0),)"",""((0, 4, 0),)"",0,0,-1,1,2,exp,""(Decimal('23.482964083473088559938139915876069326957993593632'), Decimal('420418.93773305742097178047475443645631685783694467'))"",-0.85914091422952261768014373567633124887862354684997,-0.8591409142295226176801437356763312488786235468500
""((-3, -1, 0),)"",""((0, -1, 0),)"",1,0,-1,0,1,exp,""(Decimal('15.201514620495750346649629948682734635404745284671'), Decimal('1.0257045674516218830400914009550781421157521555448'))"",-2.7182818284590452353602874713526624977572470937000,-2.7182818284590452353602874713526624977572470937000
""((-1, -1, 0),)"",""((0, 1, 0),)"",0,0,-1,2,1,exp,""(Decimal('14.441338713876200494553640500838754841965918343970'), Decimal('5.6778242555442892675291819781335797790806183792053'))"",-0.71828182845904523536028747135266249775724709369995,-0.7182818284590452353602874713526624977572470937000
""((-1, -1, 0),)"",""((1, 1, 0),)"",1,0,-1,1,1,exp,""(Decimal('23.834416520271698265932673960270365701634225582334'), Decimal('46409.105698005712995552850542647513709987373060207'))"",-1.7182818284590452353602874713526624977572470937000,-1.7182818284590452353602874713526624977572470937000
""((0, -1, 0),)"",""((0, 1, 0),)"",0,0,-1,1,1,exp,""(Decimal('23.482948312305243651401327892900316850160481823661'), Decimal('210207.57504713153393044174456675564775463277247807'))"",-1.7182818284590452353602874713526624977572470936999,-1.7182818284590452353602874713526624977572470937000
""((1, 1, 0),)"",""((1, 1, 0),)"",1,0,-1,1,-1,exp,""(Decimal('23.834416520271698265932673960270365701634225582334'), Decimal('46409.105698005712995552850542647513709987373060207'))"",1.7182818284590452353602874713526624977572470937000,1.7182818284590452353602874713526624977572470937000
""((3, 1, 0),)"",""((0, -1, 0),)"",1,0,-1,0,-1,exp,""(Decimal('15.201514620495750346649629948682734635404745284671'), Decimal('1.0257045674516218830400914009550781421157521555448'))"",2.7182818284590452353602874713526624977572470937000,2.7182818284590452353602874713526624977572470937000
""((-3, -1, 0),)"",""((0, -1, 0),)"",1,0,1,0,-1,exp,""(Decimal('15.201514620495750346649629948682734635404745284671'), Decimal('1.0257045674516218830400914009550781421157521555448'))"",-2.7182818284590452353602874713526624977572470937000,-2.7182818284590452353602874713526624977572470937000
""((-1, -1, 0),)"",""((1, 1, 0),)"",1,0,1,-1,-1,exp,""(Decimal('23.834416520271698265932673960270365701634225582334'), Decimal('46409.105698005712995552850542647513709987373060207'))"",-1.7182818284590452353602874713526624977572470937000,-1.7182818284590452353602874713526624977572470937000
""((1, 1, 0),)"",""((1, 1, 0),)"",1,0,1,-1,1,exp,""(Decimal('23.834416520271698265932673960270365701634225582334'), Decimal('46409.105698005712995552850542647513709987373060207'))"",1.7182818284590452353602874713526624977572470937000,1.7182818284590452353602874713526624977572470937000
""((3, 1, 0),)"",""((0, -1, 0),)"",1,0,1,0,1,exp,""(Decimal('15.201514620495750346649629948682734635404745284671'), Decimal('1.0257045674516218830400914009550781421157521555448'))"",2.7182818284590452353602874713526624977572470937000,2.7182818284590452353602874713526624977572470937000
".
(** results/OldResults/results_5118_050418.csv:1-18 *)
Definition csv_results_5118_050418 : text := txt "postproc_funcs,""['safe_inverse', 'lambda x: x', 'lambda x: x**2', 'lambda x: safe_inverse(x**2)']"",target_name,pi
""a poly2sympoly [a_0, a_1, ...]"",""b poly2sympoly  [b_0, b_1, ...]"",procpost_func index,u,l,c,d,convergence type,convergence rate,postfunc(cont_frac),(u/pi+pi/l+c)/d
""((-2, -4, 0),)"",""((0, 0, 4),)"",0,0,-8,0,1,exp,""(Decimal('5.8250653360618808897981655784175869977320081617820'), Decimal('0.70361421973237634211578882037639004787877516026496'))"",-0.39269908169872415480783042290993786052464617492189,-0.39269908169872415480783042290993786052464617492189
""((-1, -3, 0),)"",""((0, 3, -2),)"",0,0,-4,0,1,exp,""(Decimal('2.0773554934844206486249127430330260934056494001975'), Decimal('0.000014003267805103576962811972072938448960936204538011'))"",-0.78539816339744830961566084581987572104929234984375,-0.78539816339744830961566084581987572104929234984378
""((-1, -2, 0),)"",""((0, 0, 1),)"",0,0,-4,0,1,exp,""(Decimal('5.8272605951394884305822020761629026984372290256733'), Decimal('0.35726437084312770360148516203066730073389674632968'))"",-0.78539816339744830961566084581987572104929234984375,-0.78539816339744830961566084581987572104929234984378
""((-3, -2, 0),)"",""((0, 2, 1),)"",0,0,-2,1,2,exp,""(Decimal('5.8305250821362065315094132600966752592874174319904'), Decimal('0.48360364776332311507163923953010834822800085454878'))"",-0.28539816339744830961566084581987572104929234984378,-0.2853981633974483096156608458198757210492923498438
""((-3, -3, 0),)"",""((1, -1, -2),)"",1,0,-2,-1,1,exp,""(Decimal('2.0360261437134680497466776145709167546086011374355'), Decimal('0.0054637392857748546054467911417719615282023631520702'))"",-2.5707963267948966192313216916397514420985846996876,-2.5707963267948966192313216916397514420985846996876
""((-2, -3, 0),)"",""((0, 1, -2),)"",0,0,-2,1,1,exp,""(Decimal('2.0590959953786410672247614032003085659680343634266'), Decimal('0.00051661660180646493785191756913933589515297377898166'))"",-0.57079632679489661923132169163975144209858469968757,-0.5707963267948966192313216916397514420985846996876
""((-1, -3, 0),)"",""((0, 1, -2),)"",0,0,-2,0,1,exp,""(Decimal('2.0108305798541374520239012033151608484999842340640'), Decimal('0.062752608963042835267713381429727347285920918724181'))"",-1.5707963267948966192313216916397514420985846996875,-1.5707963267948966192313216916397514420985846996876
""((-1, 3, 0),)"",""((0, 3, -2),)"",0,0,-2,-2,1,exp,""(Decimal('1.9886941001262101564404873713983606329454937411611'), Decimal('0.77300805865743336744771302557586036900016709819925'))"",-3.5707963267948966192313216916397514420985846996875,-3.5707963267948966192313216916397514420985846996876
""((0, -3, 0),)"",""((0, 3, -2),)"",0,0,-2,-1,1,exp,""(Decimal('1.9695223308147038781621411428763573971026884002066'), Decimal('0.00011170230044209314649311132615042758397377772202977'))"",-2.5707963267948966192313216916397514420985846996875,-2.5707963267948966192313216916397514420985846996876
""((3, 3, 0),)"",""((1, -1, -2),)"",1,0,-2,-1,-1,exp,""(Decimal('2.0360261437134680497466776145709167546086011374355'), Decimal('0.0054637392857748546054467911417719615282023631520702'))"",2.5707963267948966192313216916397514420985846996876,2.5707963267948966192313216916397514420985846996876
""((-3, -3, 0),)"",""((1, -1, -2),)"",1,0,-1,-2,2,exp,""(Decimal('2.0360261437134680497466776145709167546086011374355'), Decimal('0.0054637392857748546054467911417719615282023631520702'))"",-2.5707963267948966192313216916397514420985846996876,-2.5707963267948966192313216916397514420985846996876
""((3, 3, 0),)"",""((1, -1, -2),)"",1,0,-1,-2,-2,exp,""(Decimal('2.0360261437134680497466776145709167546086011374355'), Decimal('0.0054637392857748546054467911417719615282023631520702'))"",2.5707963267948966192313216916397514420985846996876,2.5707963267948966192313216916397514420985846996876
""((-3, -3, 0),)"",""((1, -1, -2),)"",1,0,1,2,-2,exp,""(Decimal('2.0360261437134680497466776145709167546086011374355'), Decimal('0.0054637392857748546054467911417719615282023631520702'))"",-2.5707963267948966192313216916397514420985846996876,-2.5707963267948966192313216916397514420985846996876
""((3, 3, 0),)"",""((1, -1, -2),)"",1,0,1,2,2,exp,""(Decimal('2.0360261437134680497466776145709167546086011374355'), Decimal('0.0054637392857748546054467911417719615282023631520702'))"",2.5707963267948966192313216916397514420985846996876,2.5707963267948966192313216916397514420985846996876
""((-3, -3, 0),)"",""((1, -1, -2),)"",1,0,2,1,-1,exp,""(Decimal('2.0360261437134680497466776145709167546086011374355'), Decimal('0.0054637392857748546054467911417719615282023631520702'))"",-2.5707963267948966192313216916397514420985846996876,-2.5707963267948966192313216916397514420985846996876
""((3, 3, 0),)"",""((1, -1, -2),)"",1,0,2,1,1,exp,""(Decimal('2.0360261437134680497466776145709167546086011374355'), Decimal('0.0054637392857748546054467911417719615282023631520702'))"",2.5707963267948966192313216916397514420985846996876,2.5707963267948966192313216916397514420985846996876
".
(** results/OldResults/results_5200_080418.csv:1-14 *)
Definition csv_results_5200_080418 : text := txt "postproc_funcs,""['lambda x: dec_sin(x/18)', 'lambda x: 2*dec_sin(x/18)', 'lambda x: dec_sin(2*safe_inverse(x)/9)', 'lambda x: 2*dec_sin(2*safe_inverse(x)/9)']"",target_name,""percolation, 1""
""a poly2sympoly [a_0, a_1, ...]"",""b poly2sympoly  [b_0, b_1, ...]"",procpost_func index,u,l,c,d,convergence type,convergence rate,postfunc(cont_frac),(u/pi+pi/l+c)/d
""((-1, -2, 0),)"",""((0, 0, 1),)"",2,0,-2,0,1,exp,""(Decimal('5.5520662719116079794771414568348701533613704620851'), Decimal('0.050012045739215719809162528386529027011960858897241'))"",-0.17364817766693034885171662676931479600037567718405,-0.17364817766693034885171662676931479600037567718407
""((1, 2, 0),)"",""((0, 0, 1),)"",2,0,-2,0,-1,exp,""(Decimal('5.5520662719116079794771414568348701533613704620851'), Decimal('0.050012045739215719809162528386529027011960858897241'))"",0.17364817766693034885171662676931479600037567718405,0.17364817766693034885171662676931479600037567718407
""((-1, -2, 0),)"",""((0, 0, 1),)"",3,0,-1,0,1,exp,""(Decimal('5.5520662719116079794771414568348701533613704620851'), Decimal('0.050012045739215719809162528386529027011960858897241'))"",-0.34729635533386069770343325353862959200075135436810,-0.34729635533386069770343325353862959200075135436814
""((1, 2, 0),)"",""((0, 0, 1),)"",3,0,-1,0,-1,exp,""(Decimal('5.5520662719116079794771414568348701533613704620851'), Decimal('0.050012045739215719809162528386529027011960858897241'))"",0.34729635533386069770343325353862959200075135436810,0.34729635533386069770343325353862959200075135436814
""((-1, -2, 0),)"",""((0, 0, 1),)"",2,0,-1,0,2,exp,""(Decimal('5.5520662719116079794771414568348701533613704620851'), Decimal('0.050012045739215719809162528386529027011960858897241'))"",-0.17364817766693034885171662676931479600037567718405,-0.17364817766693034885171662676931479600037567718407
""((1, 2, 0),)"",""((0, 0, 1),)"",2,0,-1,0,-2,exp,""(Decimal('5.5520662719116079794771414568348701533613704620851'), Decimal('0.050012045739215719809162528386529027011960858897241'))"",0.17364817766693034885171662676931479600037567718405,0.17364817766693034885171662676931479600037567718407
""((-1, -2, 0),)"",""((0, 0, 1),)"",3,0,1,0,-1,exp,""(Decimal('5.5520662719116079794771414568348701533613704620851'), Decimal('0.050012045739215719809162528386529027011960858897241'))"",-0.34729635533386069770343325353862959200075135436810,-0.34729635533386069770343325353862959200075135436814
""((1, 2, 0),)"",""((0, 0, 1),)"",3,0,1,0,1,exp,""(Decimal('5.5520662719116079794771414568348701533613704620851'), Decimal('0.050012045739215719809162528386529027011960858897241'))"",0.34729635533386069770343325353862959200075135436810,0.34729635533386069770343325353862959200075135436814
""((-1, -2, 0),)"",""((0, 0, 1),)"",2,0,1,0,-2,exp,""(Decimal('5.5520662719116079794771414568348701533613704620851'), Decimal('0.050012045739215719809162528386529027011960858897241'))"",-0.17364817766693034885171662676931479600037567718405,-0.17364817766693034885171662676931479600037567718407
""((1, 2, 0),)"",""((0, 0, 1),)"",2,0,1,0,2,exp,""(Decimal('5.5520662719116079794771414568348701533613704620851'), Decimal('0.050012045739215719809162528386529027011960858897241'))"",0.17364817766693034885171662676931479600037567718405,0.17364817766693034885171662676931479600037567718407
""((-1, -2, 0),)"",""((0, 0, 1),)"",2,0,2,0,-1,exp,""(Decimal('5.5520662719116079794771414568348701533613704620851'), Decimal('0.050012045739215719809162528386529027011960858897241'))"",-0.17364817766693034885171662676931479600037567718405,-0.17364817766693034885171662676931479600037567718407
""((1, 2, 0),)"",""((0, 0, 1),)"",2,0,2,0,1,exp,""(Decimal('5.5520662719116079794771414568348701533613704620851'), Decimal('0.050012045739215719809162528386529027011960858897241'))"",0.17364817766693034885171662676931479600037567718405,0.17364817766693034885171662676931479600037567718407
".
(** results/OldResults/results_5300_080418.csv:1-14 *)
Definition csv_results_5300_080418 : text := txt "postproc_funcs,""['lambda x: dec_sin(x/18)', 'lambda x: 2*dec_sin(x/18)', 'lambda x: dec_sin(2*safe_inverse(x)/9)', 'lambda x: 2*dec_sin(2*safe_inverse(x)/9)']"",target_name,""percolation, 1""
""a poly2sympoly [a_0, a_1, ...]"",""b poly2sympoly  [b_0, b_1, ...]"",procpost_func index,u,l,c,d,convergence type,convergence rate,postfunc(cont_frac),(u/pi+pi/l+c)/d
""((-1, -2, 0),)"",""((0, 0, 1),)"",2,0,-2,0,1,exp,""(Decimal('5.5520662719116079794771414568348701533613704620851'), Decimal('0.050012045739215719809162528386529027011960858897241'))"",-0.17364817766693034885171662676931479600037567718405,-0.17364817766693034885171662676931479600037567718407
""((1, 2, 0),)"",""((0, 0, 1),)"",2,0,-2,0,-1,exp,""(Decimal('5.5520662719116079794771414568348701533613704620851'), Decimal('0.050012045739215719809162528386529027011960858897241'))"",0.17364817766693034885171662676931479600037567718405,0.17364817766693034885171662676931479600037567718407
""((-1, -2, 0),)"",""((0, 0, 1),)"",3,0,-1,0,1,exp,""(Decimal('5.5520662719116079794771414568348701533613704620851'), Decimal('0.050012045739215719809162528386529027011960858897241'))"",-0.34729635533386069770343325353862959200075135436810,-0.34729635533386069770343325353862959200075135436814
""((1, 2, 0),)"",""((0, 0, 1),)"",3,0,-1,0,-1,exp,""(Decimal('5.5520662719116079794771414568348701533613704620851'), Decimal('0.050012045739215719809162528386529027011960858897241'))"",0.34729635533386069770343325353862959200075135436810,0.34729635533386069770343325353862959200075135436814
""((-1, -2, 0),)"",""((0, 0, 1),)"",2,0,-1,0,2,exp,""(Decimal('5.5520662719116079794771414568348701533613704620851'), Decimal('0.050012045739215719809162528386529027011960858897241'))"",-0.17364817766693034885171662676931479600037567718405,-0.17364817766693034885171662676931479600037567718407
""((1, 2, 0),)"",""((0, 0, 1),)"",2,0,-1,0,-2,exp,""(Decimal('5.5520662719116079794771414568348701533613704620851'), Decimal('0.050012045739215719809162528386529027011960858897241'))"",0.17364817766693034885171662676931479600037567718405,0.17364817766693034885171662676931479600037567718407
""((-1, -2, 0),)"",""((0, 0, 1),)"",3,0,1,0,-1,exp,""(Decimal('5.5520662719116079794771414568348701533613704620851'), Decimal('0.050012045739215719809162528386529027011960858897241'))"",-0.34729635533386069770343325353862959200075135436810,-0.34729635533386069770343325353862959200075135436814
""((1, 2, 0),)"",""((0, 0, 1),)"",3,0,1,0,1,exp,""(Decimal('5.5520662719116079794771414568348701533613704620851'), Decimal('0.050012045739215719809162528386529027011960858897241'))"",0.34729635533386069770343325353862959200075135436810,0.34729635533386069770343325353862959200075135436814
""((-1, -2, 0),)"",""((0, 0, 1),)"",2,0,1,0,-2,exp,""(Decimal('5.5520662719116079794771414568348701533613704620851'), Decimal('0.050012045739215719809162528386529027011960858897241'))"",-0.17364817766693034885171662676931479600037567718405,-0.17364817766693034885171662676931479600037567718407
""((1, 2, 0),)"",""((0, 0, 1),)"",2,0,1,0,2,exp,""(Decimal('5.5520662719116079794771414568348701533613704620851'), Decimal('0.050012045739215719809162528386529027011960858897241'))"",0.17364817766693034885171662676931479600037567718405,0.17364817766693034885171662676931479600037567718407
""((-1, -2, 0),)"",""((0, 0, 1),)"",2,0,2,0,-1,exp,""(Decimal('5.5520662719116079794771414568348701533613704620851'), Decimal('0.050012045739215719809162528386529027011960858897241'))"",-0.17364817766693034885171662676931479600037567718405,-0.17364817766693034885171662676931479600037567718407
""((1, 2, 0),)"",""((0, 0, 1),)"",2,0,2,0,1,exp,""(Decimal('5.5520662719116079794771414568348701533613704620851'), Decimal('0.050012045739215719809162528386529027011960858897241'))"",0.17364817766693034885171662676931479600037567718405,0.17364817766693034885171662676931479600037567718407
".
(** results/OldResults/results_5517_070418.csv:1-2 *)
Definition csv_results_5517_070418 : text := txt "postproc_funcs,""['lambda x: x**3', 'lambda x: safe_inverse(x**3)', 'lambda x: x**4', 'lambda x: safe_inverse(x**4)', 'lambda x: x**5', 'lambda x: safe_inverse(x**5)']"",target_name,""feig, 3""
""a poly2sympoly [a_0, a_1, ...]"",""b poly2sympoly  [b_0, b_1, ...]"",procpost_func index,u,l,c,d,convergence type,convergence rate,postfunc(cont_frac),(u/pi+pi/l+c)/d
".
(** results/OldResults/results_5715_070418.csv:1-2 *)
Definition csv_results_5715_070418 : text := txt "postproc_funcs,""['lambda x: x**3', 'lambda x: safe_inverse(x**3)', 'lambda x: x**4', 'lambda x: safe_inverse(x**4)', 'lambda x: x**5', 'lambda x: safe_inverse(x**5)']"",target_name,euler_masch
""a poly2sympoly [a_0, a_1, ...]"",""b poly2sympoly  [b_0, b_1, ...]"",procpost_func index,u,l,c,d,convergence type,convergence rate,postfunc(cont_frac),(u/pi+pi/l+c)/d
".
(** The files other than results.csv. [results/OldResults/results_0005_120418.csv:1-16 and the others] *)
Definition stored_texts : list (string * text) :=
  [("results_0005_120418.csv"%string, csv_results_0005_120418); ("results_0117_050418.csv"%string, csv_results_0117_050418); ("results_0301_080418.csv"%string, csv_results_0301_080418); ("results_1114_070418.csv"%string, csv_results_1114_070418); ("results_1205_230418.csv"%string, csv_results_1205_230418); ("results_1208_230418.csv"%string, csv_results_1208_230418); ("results_1303_230418.csv"%string, csv_results_1303_230418); ("results_1309_230418.csv"%string, csv_results_1309_230418); ("results_1334_230418.csv"%string, csv_results_1334_230418); ("results_1336_230418.csv"%string, csv_results_1336_230418); ("results_1414_070418.csv"%string, csv_results_1414_070418); ("results_1517_050418.csv"%string, csv_results_1517_050418); ("results_1718_050418.csv"%string, csv_results_1718_050418); ("results_2115_070418.csv"%string, csv_results_2115_070418); ("results_2218_070418.csv"%string, csv_results_2218_070418); ("results_2819_070418.csv"%string, csv_results_2819_070418); ("results_3018_050418.csv"%string, csv_results_3018_050418); ("results_3113_100418.csv"%string, csv_results_3113_100418); ("results_3122_070418.csv"%string, csv_results_3122_070418); ("results_3519_070418.csv"%string, csv_results_3519_070418); ("results_3719_070418.csv"%string, csv_results_3719_070418); ("results_3819_070418.csv"%string, csv_results_3819_070418); ("results_4019_070418.csv"%string, csv_results_4019_070418); ("results_4200_080418.csv"%string, csv_results_4200_080418); ("results_4521_050418.csv"%string, csv_results_4521_050418); ("results_4614_070418.csv"%string, csv_results_4614_070418); ("results_5118_050418.csv"%string, csv_results_5118_050418); ("results_5200_080418.csv"%string, csv_results_5200_080418); ("results_5300_080418.csv"%string, csv_results_5300_080418); ("results_5517_070418.csv"%string, csv_results_5517_070418); ("results_5715_070418.csv"%string, csv_results_5715_070418)].
