(** * ConfData: the files the project's own tests parse
    Token streams of the files under /repo/testdata named in /repo/parse_test.go:18-66, as
    encoding/xml delivers them (local names only).  Produced by a script from the files. *)
From Verif Require Import Elements.

(** testdata/landscapeIcons/beach.svg *)
Definition t_beach : list token := [
  TOther;
  TOther;
  TStart "svg" [mkAttr "version" "1.1"; mkAttr "id" "Capa_1"; mkAttr "xmlns" "http://www.w3.org/2000/svg"; mkAttr "xlink" "http://www.w3.org/1999/xlink"; mkAttr "x" "0px"; mkAttr "y" "0px"; mkAttr "viewBox" "0 0 512 512"; mkAttr "space" "preserve"];
  TChar "
";
  TStart "g" [];
  TChar "
	";
  TStart "g" [];
  TChar "
		";
  TStart "circle" [mkAttr "style" "fill:#8DD9FF;"; mkAttr "cx" "256"; mkAttr "cy" "256"; mkAttr "r" "256"];
  TEnd "circle";
  TChar "
	";
  TEnd "g";
  TChar "
	";
  TStart "g" [mkAttr "style" "opacity:0.3;"];
  TChar "
		";
  TStart "path" [mkAttr "style" "fill:#FFFFF4;"; mkAttr "d" "M153.423,21.442C141.133,42.833,134,67.561,134,94c0,80.633,65.366,146,146,146s146-65.367,146-146    c0-11.231-1.388-22.118-3.789-32.621C377.481,23.141,319.459,0,256,0C219.512,0,184.835,7.685,153.423,21.442z"];
  TEnd "path";
  TChar "
	";
  TEnd "g";
  TChar "
	";
  TStart "g" [mkAttr "style" "opacity:0.4;"];
  TChar "
		";
  TStart "circle" [mkAttr "style" "fill:#FFFFF4;"; mkAttr "cx" "280"; mkAttr "cy" "94"; mkAttr "r" "68.639"];
  TEnd "circle";
  TChar "
	";
  TEnd "g";
  TChar "
	";
  TStart "g" [mkAttr "style" "opacity:0.6;"];
  TChar "
		";
  TStart "path" [mkAttr "style" "fill:#FFFFFF;"; mkAttr "d" "M348.085,306.417c0-12.222-9.908-22.131-22.131-22.131c-1.845,0-3.608,0.292-5.322,0.717    c-5.775-6.236-13.962-10.202-23.132-10.202c-17.461,0-31.615,14.155-31.615,31.615H348.085z"];
  TEnd "path";
  TChar "
	";
  TEnd "g";
  TChar "
	";
  TStart "g" [];
  TChar "
		";
  TStart "path" [mkAttr "style" "fill:#FFFFFF;"; mkAttr "d" "M171.318,306.417c0-16.705-13.542-30.247-30.247-30.247c-2.521,0-4.932,0.399-7.273,0.98    c-7.893-8.523-19.083-13.943-31.616-13.943c-23.864,0-43.211,19.346-43.211,43.211H171.318z"];
  TEnd "path";
  TChar "
	";
  TEnd "g";
  TChar "
	";
  TStart "g" [];
  TChar "
		";
  TStart "path" [mkAttr "style" "fill:#FFFFFF;"; mkAttr "d" "M273.087,291.749c-1.539,0-2.993,0.303-4.387,0.742c-4.416-6.347-11.74-10.521-20.058-10.521    s-15.643,4.173-20.058,10.521c-1.394-0.44-2.848-0.742-4.387-0.742c-8.101,0-14.667,6.567-14.667,14.667h78.226    C287.754,298.316,281.187,291.749,273.087,291.749z"];
  TEnd "path";
  TChar "
	";
  TEnd "g";
  TChar "
	";
  TStart "g" [];
  TChar "
		";
  TStart "path" [mkAttr "style" "fill:#FFFFFF;"; mkAttr "d" "M435.169,294.608c-1.239,0-2.41,0.244-3.532,0.598c-3.555-5.11-9.452-8.47-16.149-8.47    s-12.594,3.36-16.149,8.47c-1.122-0.354-2.293-0.598-3.532-0.598c-6.522,0-11.808,5.287-11.808,11.808h62.978    C446.978,299.895,441.691,294.608,435.169,294.608z"];
  TEnd "path";
  TChar "
	";
  TEnd "g";
  TChar "
	";
  TStart "g" [mkAttr "style" "opacity:0.6;"];
  TChar "
		";
  TStart "path" [mkAttr "style" "fill:#FFFFFF;"; mkAttr "d" "M489.448,291.93c-1.52,0-2.956,0.299-4.333,0.733c-4.361-6.269-11.596-10.391-19.812-10.391    s-15.45,4.122-19.812,10.391c-1.377-0.434-2.813-0.733-4.333-0.733c-8.001,0-14.487,6.486-14.487,14.487h77.263    C503.935,298.416,497.449,291.93,489.448,291.93z"];
  TEnd "path";
  TChar "
	";
  TEnd "g";
  TChar "
	";
  TStart "g" [mkAttr "style" "opacity:0.2;"];
  TChar "
		";
  TStart "path" [mkAttr "style" "fill:#57B9E7;"; mkAttr "d" "M503.935,320H46.667L88,416c0,0,118.137,69.333,152.402,77.333    c14.091,3.29,38.771,8.834,62.948,14.224C401.14,489.26,479.372,415.433,503.935,320z"];
  TEnd "path";
  TChar "
	";
  TEnd "g";
  TChar "
	";
  TStart "g" [];
  TChar "
		";
  TStart "path" [mkAttr "style" "fill:#B3F4EF;"; mkAttr "d" "M474.783,388.987c-45.206-18.245-126.877-30.453-220.288-30.453    c-79.072,0-149.789,8.74-197.071,22.487l12.975,29.632c0,0,87.826,50.676,139.776,73.361c14.407,0.613,29.199,0.95,44.32,0.95    c48.484,0,93.766-3.309,132.499-9.019C422.857,454.539,453.063,424.642,474.783,388.987z"];
  TEnd "path";
  TChar "
	";
  TEnd "g";
  TChar "
	";
  TStart "g" [];
  TChar "
		";
  TStart "path" [mkAttr "style" "fill:#FFFFFF;"; mkAttr "d" "M465.151,403.557H132.192V427h314.274C453.145,419.572,459.369,411.733,465.151,403.557z"];
  TEnd "path";
  TChar "
	";
  TEnd "g";
  TChar "
	";
  TStart "g" [];
  TChar "
		";
  TStart "path" [mkAttr "style" "fill:#FFF8DB;"; mkAttr "d" "M450.936,421.749H132.192c0,0,64.29,43.251,65.049,43.251c0.491,0,96.303,8.35,163.943,14.25    c8.863-0.994,17.515-2.082,25.81-3.304C411.205,461.494,432.752,443.099,450.936,421.749z"];
  TEnd "path";
  TChar "
	";
  TEnd "g";
  TChar "
	";
  TStart "g" [];
  TChar "
		";
  TStart "path" [mkAttr "style" "fill:#57B9E7;"; mkAttr "d" "M256,333c89.83,0,171.652,10.788,233.157,28.471c6.021-13.281,11.077-27.093,14.777-41.471H46.667    l13.812,32.079C116.109,340.051,183.43,333,256,333z"];
  TEnd "path";
  TChar "
	";
  TEnd "g";
  TChar "
	";
  TStart "g" [];
  TChar "
		";
  TStart "g" [];
  TChar "
			";
  TStart "g" [];
  TChar "
				";
  TStart "path" [mkAttr "style" "fill:#8C665B;"; mkAttr "d" "M47.719,324c-2.984,0-5.844-1.672-7.219-4.535c-1.914-3.984-0.234-8.762,3.75-10.676      c34.969-16.801,76.656-53.531,76.656-133.109c0-4.418,3.578-8,8-8s8,3.582,8,8c0,87.898-46.625,128.742-85.734,147.531      C50.055,323.746,48.875,324,47.719,324z"];
  TEnd "path";
  TChar "
			";
  TEnd "g";
  TChar "
		";
  TEnd "g";
  TChar "
		";
  TStart "g" [];
  TChar "
			";
  TStart "g" [];
  TChar "
				";
  TStart "g" [];
  TChar "
					";
  TStart "path" [mkAttr "style" "fill:#43AB5F;"; mkAttr "d" "M132.046,168.183c0,0-48.214-1.262-49.891,48.188c0,0,5.467-4.433,7.382-8.57       c0,0,1.238,2.507,0.361,5.124c0,0,4.508-4.382,5.691-9.236c0,0,0.815,1.811,0.016,4.433c0,0,4.708-3.868,6.007-6.957       c0,0,0.767,1.389-0.3,3.325c0,0,4.467-3.883,5.582-9.411c0,0,1.363,1.262,1.013,4.165c0,0,5.341-6.333,5.896-9.974       c0,0,1.823,0.761,0.781,3.507C114.584,192.776,127.672,183.049,132.046,168.183z"];
  TEnd "path";
  TChar "
				";
  TEnd "g";
  TChar "
			";
  TEnd "g";
  TChar "
			";
  TStart "g" [];
  TChar "
				";
  TStart "g" [];
  TChar "
					";
  TStart "path" [mkAttr "style" "fill:#43AB5F;"; mkAttr "d" "M132.046,168.183c0,0,40.842,25.655,14.847,67.755c0,0-2.097-6.719-1.399-11.224       c0,0-2.42,1.401-3.139,4.066c0,0-1.327-6.145,0.378-10.843c0,0-1.682,1.057-2.468,3.683c0,0-1.778-5.828-1.148-9.12       c0,0-1.408,0.732-1.592,2.935c0,0-1.568-5.708,0.565-10.927c0,0-1.834,0.296-3.15,2.906c0,0-0.939-8.231,0.616-11.57       c0,0-1.94-0.376-2.593,2.488C132.962,198.331,127.454,182.983,132.046,168.183z"];
  TEnd "path";
  TChar "
				";
  TEnd "g";
  TChar "
			";
  TEnd "g";
  TChar "
			";
  TStart "g" [];
  TChar "
				";
  TStart "g" [];
  TChar "
					";
  TStart "path" [mkAttr "style" "fill:#52C883;"; mkAttr "d" "M132.046,168.183c0,0,4.962-50.133-43.047-55.016c0,0,3.892,5.975,7.771,8.232       c0,0-2.537,1.13-5.017,0.05c0,0,3.917,4.973,8.551,6.513c0,0-1.826,0.735-4.317-0.264c0,0,3.4,5.148,6.308,6.697       c0,0-1.411,0.71-3.213-0.523c0,0,3.434,4.898,8.729,6.41c0,0-1.334,1.34-4.133,0.792c0,0,5.752,5.963,9.254,6.773       c0,0-0.883,1.85-3.475,0.59C109.457,148.437,117.913,162.684,132.046,168.183z"];
  TEnd "path";
  TChar "
				";
  TEnd "g";
  TChar "
			";
  TEnd "g";
  TChar "
			";
  TStart "g" [];
  TChar "
				";
  TStart "path" [mkAttr "style" "fill:#34BE69;"; mkAttr "d" "M132.046,168.183c0,0-36.121-40.796-78.65-3.771c0,0,7.912,1.071,12.838-0.56      c0,0-1.137,2.97-3.996,4.278c0,0,7.13,0.319,12.09-2.475c0,0-0.881,2.08-3.684,3.456c0,0,6.855,0.884,10.433-0.443      c0,0-0.568,1.712-3.004,2.335c0,0,6.682,0.673,12.151-2.701c0,0-0.001,2.106-2.692,4.072c0,0,9.399-0.509,12.864-2.879      c0,0,0.771,2.097-2.323,3.37C98.074,172.866,116.277,176.117,132.046,168.183z"];
  TEnd "path";
  TChar "
			";
  TEnd "g";
  TChar "
			";
  TStart "g" [];
  TChar "
				";
  TStart "path" [mkAttr "style" "fill:#34BE69;"; mkAttr "d" "M132.046,168.183c0,0,52.671-13.959,67.572,40.425c0,0-7.181-3.49-10.379-7.577      c0,0-0.699,3.102,0.957,5.775c0,0-6.113-3.684-8.695-8.758c0,0-0.419,2.22,1.153,4.919c0,0-6.197-3.061-8.441-6.148      c0,0-0.475,1.74,1.208,3.608c0,0-5.936-3.141-8.621-8.98c0,0-1.165,1.755-0.014,4.882c0,0-7.544-5.63-9.115-9.522      c0,0-1.803,1.319,0.068,4.092C157.737,190.899,140.781,183.524,132.046,168.183z"];
  TEnd "path";
  TChar "
			";
  TEnd "g";
  TChar "
			";
  TStart "g" [];
  TChar "
				";
  TStart "g" [];
  TChar "
					";
  TStart "path" [mkAttr "style" "fill:#52C883;"; mkAttr "d" "M132.046,168.183c0,0,9.609-53.635,65.194-44.157c0,0-6.198,5.034-11.253,6.205       c0,0,2.516,1.944,5.638,1.573c0,0-5.923,3.983-11.611,4.179c0,0,1.834,1.319,4.944,1.034c0,0-5.392,4.323-9.139,5.052       c0,0,1.375,1.165,3.78,0.43c0,0-5.356,4.052-11.781,4.018c0,0,1.098,1.798,4.418,2.076c0,0-8.29,4.458-12.482,4.237       c0,0,0.433,2.192,3.738,1.668C163.491,154.499,149.641,166.75,132.046,168.183z"];
  TEnd "path";
  TChar "
				";
  TEnd "g";
  TChar "
			";
  TEnd "g";
  TChar "
		";
  TEnd "g";
  TChar "
	";
  TEnd "g";
  TChar "
	";
  TStart "g" [];
  TChar "
		";
  TStart "g" [];
  TChar "
			";
  TStart "path" [mkAttr "style" "fill:#8C665B;"; mkAttr "d" "M103.058,409.75v-16.233c25.728,0,87.092-67.741,88.717-97.947l16.217,0.872     C205.868,335.625,137.228,409.75,103.058,409.75z"];
  TEnd "path";
  TChar "
		";
  TEnd "g";
  TChar "
	";
  TEnd "g";
  TChar "
	";
  TStart "g" [];
  TChar "
		";
  TStart "circle" [mkAttr "style" "fill:#FFFFFF;"; mkAttr "cx" "280"; mkAttr "cy" "94"; mkAttr "r" "26.985"];
  TEnd "circle";
  TChar "
	";
  TEnd "g";
  TChar "
	";
  TStart "g" [];
  TChar "
		";
  TStart "path" [mkAttr "style" "fill:#8C665B;"; mkAttr "d" "M207.595,432c-19.824-16-41.116-0.667-52.864-24c-6.929-13.763-37.866-4.4-52.864-16    c-19.824-15.333-16.789-35.083-26.432-56c-12.39-26.875-43.493-45.546-73.345-47.775C17.948,414.386,125.538,512,256,512    c64.899,0,124.115-24.197,169.237-64c-20.117,0-153.906,0-173.589,0C230.355,448,219.339,441.479,207.595,432z"];
  TEnd "path";
  TChar "
	";
  TEnd "g";
  TChar "
	";
  TStart "g" [];
  TChar "
		";
  TStart "g" [];
  TChar "
			";
  TStart "g" [];
  TChar "
				";
  TStart "path" [mkAttr "style" "fill:#43AB5F;"; mkAttr "d" "M202.224,298.427c0,0-52.8-6.236-59.616,47.878c0,0,6.448-4.317,8.966-8.665      c0,0,1.107,2.877-0.119,5.662c0,0,5.389-4.356,7.177-9.567c0,0,0.713,2.07-0.429,4.868c0,0,5.558-3.772,7.294-7.033      c0,0,0.702,1.602-0.664,3.62c0,0,5.295-3.813,7.075-9.769c0,0,1.369,1.523,0.693,4.674c0,0,6.5-6.415,7.476-10.356      c0,0,1.925,1.019,0.504,3.929C180.581,323.667,195.926,314.305,202.224,298.427z"];
  TEnd "path";
  TChar "
			";
  TEnd "g";
  TChar "
		";
  TEnd "g";
  TChar "
		";
  TStart "g" [];
  TChar "
			";
  TStart "g" [];
  TChar "
				";
  TStart "path" [mkAttr "style" "fill:#43AB5F;"; mkAttr "d" "M202.224,298.427c0,0,42.252,32.272,9.481,75.871c0,0-1.625-7.587-0.407-12.462      c0,0-2.797,1.295-3.855,4.148c0,0-0.838-6.879,1.505-11.864c0,0-1.952,0.991-3.08,3.794c0,0-1.365-6.577-0.342-10.127      c0,0-1.619,0.662-2.043,3.061c0,0-1.147-6.424,1.719-11.939c0,0-2.043,0.14-3.75,2.873c0,0-0.203-9.13,1.84-12.639      c0,0-2.091-0.608-3.097,2.47C200.196,331.614,195.694,314.211,202.224,298.427z"];
  TEnd "path";
  TChar "
			";
  TEnd "g";
  TChar "
		";
  TEnd "g";
  TChar "
		";
  TStart "g" [];
  TChar "
			";
  TStart "g" [];
  TChar "
				";
  TStart "path" [mkAttr "style" "fill:#52C883;"; mkAttr "d" "M202.224,298.427c0,0,10.491-54.534-41.719-64.724c0,0,3.671,6.95,7.702,9.818      c0,0-2.898,0.985-5.512-0.449c0,0,3.799,5.853,8.731,8.01c0,0-2.078,0.623-4.712-0.724c0,0,3.215,5.993,6.251,7.986      c0,0-1.621,0.637-3.475-0.898c0,0,3.277,5.723,8.937,7.914c0,0-1.6,1.337-4.617,0.453c0,0,5.714,7.125,9.477,8.366      c0,0-1.155,1.942-3.874,0.298C179.414,274.478,187.263,290.967,202.224,298.427z"];
  TEnd "path";
  TChar "
			";
  TEnd "g";
  TChar "
		";
  TEnd "g";
  TChar "
		";
  TStart "g" [];
  TChar "
			";
  TStart "path" [mkAttr "style" "fill:#34BE69;"; mkAttr "d" "M202.224,298.427c0,0-35.547-48.418-85.959-12.053c0,0,8.578,1.972,14.15,0.677     c0,0-1.547,3.146-4.817,4.295c0,0,7.795,1.068,13.521-1.5c0,0-1.176,2.195-4.392,3.423c0,0,7.436,1.66,11.498,0.563     c0,0-0.795,1.822-3.532,2.261c0,0,7.267,1.411,13.611-1.742c0,0-0.213,2.312-3.365,4.199c0,0,10.369,0.387,14.411-1.866     c0,0,0.635,2.38-2.889,3.465C164.46,300.149,184.115,305.549,202.224,298.427z"];
  TEnd "path";
  TChar "
		";
  TEnd "g";
  TChar "
		";
  TStart "g" [];
  TChar "
			";
  TStart "path" [mkAttr "style" "fill:#34BE69;"; mkAttr "d" "M202.224,298.427c0,0,59.223-10.024,70.109,51.175c0,0-7.532-4.554-10.631-9.361     c0,0-1.079,3.335,0.469,6.435c0,0-6.34-4.659-8.664-10.489c0,0-0.683,2.395,0.771,5.515c0,0-6.495-3.983-8.648-7.599     c0,0-0.696,1.862,0.963,4.083c0,0-6.2-4.046-8.56-10.725c0,0-1.456,1.809-0.507,5.357c0,0-7.715-6.939-9.048-11.37     c0,0-2.112,1.267-0.337,4.499C228.14,325.948,210.269,316.146,202.224,298.427z"];
  TEnd "path";
  TChar "
		";
  TEnd "g";
  TChar "
		";
  TStart "g" [];
  TChar "
			";
  TStart "g" [];
  TChar "
				";
  TStart "path" [mkAttr "style" "fill:#52C883;"; mkAttr "d" "M202.224,298.427c0,0,15.944-57.911,76.009-41.914c0,0-7.31,4.902-12.978,5.679      c0,0,2.567,2.387,6.031,2.294c0,0-6.902,3.777-13.167,3.419c0,0,1.881,1.632,5.323,1.633c0,0-6.354,4.203-10.54,4.627      c0,0,1.393,1.418,4.106,0.853c0,0-6.287,3.909-13.337,3.226c0,0,1.025,2.084,4.641,2.724c0,0-9.549,4.059-14.129,3.395      c0,0,0.255,2.45,3.935,2.207C238.119,286.569,221.683,298.624,202.224,298.427z"];
  TEnd "path";
  TChar "
			";
  TEnd "g";
  TChar "
		";
  TEnd "g";
  TChar "
	";
  TEnd "g";
  TChar "
	";
  TStart "g" [];
  TChar "
		";
  TStart "path" [mkAttr "style" "fill:#8C665B;"; mkAttr "d" "M398.258,216h-16c0,84.383,26.153,147.25,79.725,191.986c3.179-4.301,6.192-8.729,9.102-13.23    C422.144,353.253,398.258,294.696,398.258,216z"];
  TEnd "path";
  TChar "
	";
  TEnd "g";
  TChar "
	";
  TStart "g" [];
  TChar "
		";
  TStart "g" [];
  TChar "
			";
  TStart "g" [];
  TChar "
				";
  TStart "path" [mkAttr "style" "fill:#43AB5F;"; mkAttr "d" "M388.377,213.662c0,0-58.416,24.647-33.596,84.767c0,0,4.142-8.275,4.19-14.267      c0,0,2.843,2.33,3.212,5.94c0,0,3.021-7.692,1.804-14.147c0,0,1.959,1.726,2.424,5.299c0,0,3.539-7.186,3.418-11.59      c0,0,1.671,1.247,1.445,4.144c0,0,3.242-7.074,1.578-14.297c0,0,2.317,0.772,3.473,4.437c0,0,2.96-10.481,1.648-15.142      c0,0,2.596-0.078,2.838,3.776C380.811,252.583,391.205,233.835,388.377,213.662z"];
  TEnd "path";
  TChar "
			";
  TEnd "g";
  TChar "
		";
  TEnd "g";
  TChar "
		";
  TStart "g" [];
  TChar "
			";
  TStart "g" [];
  TChar "
				";
  TStart "path" [mkAttr "style" "fill:#43AB5F;"; mkAttr "d" "M388.377,213.662c0,0,62.823,8.562,54.537,73.075c0,0-6.156-6.908-7.765-12.68      c0,0-2.137,2.991-1.552,6.572c0,0-4.922-6.638-5.43-13.188c0,0-1.441,2.178-0.957,5.749c0,0-5.291-6.014-6.322-10.298      c0,0-1.289,1.641-0.314,4.378c0,0-4.974-5.984-5.252-13.391c0,0-2.035,1.349-2.195,5.189c0,0-5.591-9.347-5.54-14.188      c0,0-2.527,0.602-1.755,4.386C405.831,249.264,390.908,233.874,388.377,213.662z"];
  TEnd "path";
  TChar "
			";
  TEnd "g";
  TChar "
		";
  TEnd "g";
  TChar "
		";
  TStart "g" [];
  TChar "
			";
  TStart "g" [];
  TChar "
				";
  TStart "path" [mkAttr "style" "fill:#52C883;"; mkAttr "d" "M388.377,213.662c0,0-21.258-62.721-81.392-42.522c0,0,7.901,5.043,13.771,5.641      c0,0-2.424,2.729-5.979,2.782c0,0,7.388,3.83,13.772,3.159c0,0-1.788,1.87-5.312,2.026c0,0,6.864,4.319,11.187,4.597      c0,0-1.305,1.615-4.132,1.117c0,0,6.769,4.002,13.93,2.939c0,0-0.87,2.329-4.52,3.191c0,0,10.122,4.02,14.756,3.089      c0,0-0.053,2.694-3.841,2.592C350.616,202.273,368.471,214.744,388.377,213.662z"];
  TEnd "path";
  TChar "
			";
  TEnd "g";
  TChar "
		";
  TEnd "g";
  TChar "
		";
  TStart "g" [];
  TChar "
			";
  TStart "path" [mkAttr "style" "fill:#34BE69;"; mkAttr "d" "M388.377,213.662c0,0-65.384-29.252-96.222,38.155c0,0,10.055-3.01,15.069-7.636     c0,0,0.25,4.173-2.463,7.291c0,0,8.711-3.486,13.134-9.523c0,0,0.074,2.968-2.536,6.137c0,0,8.688-2.66,12.252-6.191     c0,0,0.249,2.357-2.33,4.425c0,0,8.366-2.82,13.085-9.826c0,0,1.141,2.523-1.014,6.337c0,0,10.978-5.708,13.841-10.427     c0,0,2.06,2.093-0.954,5.295C350.24,237.7,373.799,231.717,388.377,213.662z"];
  TEnd "path";
  TChar "
		";
  TEnd "g";
  TChar "
		";
  TStart "g" [];
  TChar "
			";
  TStart "path" [mkAttr "style" "fill:#34BE69;"; mkAttr "d" "M388.377,213.662c0,0,55.495-45.29,102.842,11.745c0,0-10.492-0.283-16.538-3.441     c0,0,0.846,4.093,4.279,6.396c0,0-9.319-1.095-15.163-5.769c0,0,0.703,2.886,4.049,5.264c0,0-9.081-0.302-13.443-2.782     c0,0,0.375,2.341,3.404,3.665c0,0-8.812-0.541-15.195-6.075c0,0-0.443,2.734,2.631,5.853c0,0-12.087-2.648-16.081-6.456     c0,0-1.443,2.558,2.301,4.863C431.464,226.923,407.159,227.292,388.377,213.662z"];
  TEnd "path";
  TChar "
		";
  TEnd "g";
  TChar "
		";
  TStart "g" [];
  TChar "
			";
  TStart "g" [];
  TChar "
				";
  TStart "path" [mkAttr "style" "fill:#52C883;"; mkAttr "d" "M388.377,213.662c0,0-17.593-69.435,54.107-88.244c0,0-4.69,9.39-10.109,13.535      c0,0,4.068,0.963,7.605-1.175c0,0-4.931,7.983-11.636,11.303c0,0,2.912,0.584,6.481-1.444c0,0-4.111,8.102-8.202,11.008      c0,0,2.279,0.649,4.76-1.536c0,0-4.214,7.758-11.927,11.203c0,0,2.29,1.557,6.416,0.09c0,0-7.508,9.835-12.647,11.845      c0,0,1.708,2.389,5.38-0.031C418.606,180.217,408.668,202.4,388.377,213.662z"];
  TEnd "path";
  TChar "
			";
  TEnd "g";
  TChar "
		";
  TEnd "g";
  TChar "
	";
  TEnd "g";
  TChar "
	";
  TStart "g" [];
  TChar "
		";
  TStart "path" [mkAttr "style" "fill:#674447;"; mkAttr "d" "M64.522,361.471c-14.177-28.669-32.486-27.638-52.888-29.339C44.045,436.323,141.141,512,256,512    c50.208,0,96.982-14.531,136.493-39.518c-12.798-1.866-27.16-5.816-52.227,4.943c-12.539,5.382-30.019-18.004-41.595-19.425    c-32.568-4-68.005,21.25-89.143,4c-27.108-22.121-38.528-2-60.323-11.501c-21.795-9.5-10.245-27.252-18.987-36.721    C116.265,398.667,85.333,403.557,64.522,361.471z"];
  TEnd "path";
  TChar "
	";
  TEnd "g";
  TChar "
";
  TEnd "g";
  TChar "
";
  TStart "g" [];
  TChar "
";
  TEnd "g";
  TChar "
";
  TStart "g" [];
  TChar "
";
  TEnd "g";
  TChar "
";
  TStart "g" [];
  TChar "
";
  TEnd "g";
  TChar "
";
  TStart "g" [];
  TChar "
";
  TEnd "g";
  TChar "
";
  TStart "g" [];
  TChar "
";
  TEnd "g";
  TChar "
";
  TStart "g" [];
  TChar "
";
  TEnd "g";
  TChar "
";
  TStart "g" [];
  TChar "
";
  TEnd "g";
  TChar "
";
  TStart "g" [];
  TChar "
";
  TEnd "g";
  TChar "
";
  TStart "g" [];
  TChar "
";
  TEnd "g";
  TChar "
";
  TStart "g" [];
  TChar "
";
  TEnd "g";
  TChar "
";
  TStart "g" [];
  TChar "
";
  TEnd "g";
  TChar "
";
  TStart "g" [];
  TChar "
";
  TEnd "g";
  TChar "
";
  TStart "g" [];
  TChar "
";
  TEnd "g";
  TChar "
";
  TStart "g" [];
  TChar "
";
  TEnd "g";
  TChar "
";
  TStart "g" [];
  TChar "
";
  TEnd "g";
  TChar "
";
  TEnd "svg"]%string.

(** testdata/landscapeIcons/cape.svg *)
Definition t_cape : list token := [
  TOther;
  TOther;
  TStart "svg" [mkAttr "version" "1.1"; mkAttr "id" "Capa_1"; mkAttr "xmlns" "http://www.w3.org/2000/svg"; mkAttr "xlink" "http://www.w3.org/1999/xlink"; mkAttr "x" "0px"; mkAttr "y" "0px"; mkAttr "viewBox" "0 0 512 512"; mkAttr "style" "enable-background:new 0 0 512 512;"; mkAttr "space" "preserve"];
  TChar "
";
  TStart "g" [];
  TChar "
	";
  TStart "g" [];
  TChar "
		";
  TStart "circle" [mkAttr "style" "fill:#B26483;"; mkAttr "cx" "256"; mkAttr "cy" "256"; mkAttr "r" "256"];
  TEnd "circle";
  TChar "
	";
  TEnd "g";
  TChar "
	";
  TStart "g" [];
  TChar "
		";
  TStart "path" [mkAttr "style" "fill:#9B5A6F;"; mkAttr "d" "M413.274,295.635c-1.717,0-3.34,0.338-4.895,0.828c-4.926-7.082-13.099-11.738-22.379-11.738    s-17.453,4.656-22.379,11.738c-1.555-0.49-3.178-0.828-4.895-0.828c-9.038,0-16.365,7.327-16.365,16.365h87.277    C429.639,302.962,422.312,295.635,413.274,295.635z"];
  TEnd "path";
  TChar "
	";
  TEnd "g";
  TChar "
	";
  TStart "g" [mkAttr "style" "opacity:0.35;"];
  TChar "
		";
  TStart "circle" [mkAttr "style" "fill:#FF7998;"; mkAttr "cx" "211.034"; mkAttr "cy" "272"; mkAttr "r" "152"];
  TEnd "circle";
  TChar "
	";
  TEnd "g";
  TChar "
	";
  TStart "g" [];
  TChar "
		";
  TStart "circle" [mkAttr "style" "fill:#FF7998;"; mkAttr "cx" "149.725"; mkAttr "cy" "350.845"; mkAttr "r" "71.308"];
  TEnd "circle";
  TChar "
	";
  TEnd "g";
  TChar "
	";
  TStart "g" [];
  TChar "
		";
  TStart "path" [mkAttr "style" "fill:#9B5A6F;"; mkAttr "d" "M294.079,312c0-15.303,12.406-27.71,27.71-27.71c2.31,0,4.518,0.365,6.663,0.898    c7.23-7.808,17.482-12.773,28.963-12.773C379.277,272.415,397,290.138,397,312H294.079z"];
  TEnd "path";
  TChar "
	";
  TEnd "g";
  TChar "
	";
  TStart "g" [];
  TChar "
		";
  TStart "path" [mkAttr "style" "fill:#FF4F70;"; mkAttr "d" "M496.473,344H136l79.985,112c0,0,62.61,27.165,110.39,46.124    C405.2,479.625,468.52,420.364,496.473,344z"];
  TEnd "path";
  TChar "
	";
  TEnd "g";
  TChar "
	";
  TStart "g" [];
  TChar "
		";
  TStart "path" [mkAttr "style" "fill:#835354;"; mkAttr "d" "M159.5,396.5h110.333C256,380.333,229.086,386.174,209.167,371    c-18.463-14.064-35.07-46.166-70.167-52c-35.096-5.835-53-7-53-7l66.5,93l7-1.387V396.5z"];
  TEnd "path";
  TChar "
	";
  TEnd "g";
  TChar "
	";
  TStart "g" [];
  TChar "
		";
  TStart "path" [mkAttr "style" "fill:#B26483;"; mkAttr "d" "M296,288c-2.518,0-4.898,0.496-7.179,1.215C281.596,278.829,269.611,272,256,272    s-25.596,6.829-32.821,17.215C220.898,288.496,218.518,288,216,288c-13.255,0-24,10.745-24,24h128    C320,298.745,309.255,288,296,288z"];
  TEnd "path";
  TChar "
	";
  TEnd "g";
  TChar "
	";
  TStart "g" [];
  TChar "
		";
  TStart "path" [mkAttr "style" "fill:#674447;"; mkAttr "d" "M336.5,147.8h-49.974c0.896-2.515,1.474-5.181,1.474-8c0-10.813-7.188-19.977-17.031-22.969    C267.977,106.984,258.813,99.8,248,99.8h-48c-10.813,0-19.977,7.184-22.969,17.031C167.188,119.824,160,128.988,160,139.8    c0,2.819,0.578,5.485,1.475,8h-17.192c-13.234,0-24,10.766-24,24s10.766,24,24,24H192c13.234,0,24-10.766,24-24    c0-2.819-0.578-5.485-1.474-8h10.948c-0.896,2.515-1.474,5.181-1.474,8c0,13.234,10.766,24,24,24h1.367    c-0.883,2.504-1.367,5.195-1.367,8c0,13.234,10.766,24,24,24h32c13.234,0,24-10.766,24-24c0-2.805-0.484-5.496-1.367-8h9.867    c13.234,0,24-10.766,24-24S349.734,147.8,336.5,147.8z"];
  TEnd "path";
  TChar "
	";
  TEnd "g";
  TChar "
	";
  TStart "g" [];
  TChar "
		";
  TStart "path" [mkAttr "style" "fill:#674447;"; mkAttr "d" "M256,512c68.183,0,130.09-26.708,175.969-70.166c-35.016-0.854-43.28-8.492-105.032-8.492    c-26.177,0-94.685,23.268-120.093-25.734c-20.015-38.601-56.205-69.597-85.781-77.202c-25.019-6.434-32.167-30.738-34.312-60.047    c-2.252-30.78-27.164-31.453-42.89-51.468c-14.833-18.879-14.423-40.28-31.122-42.652C4.511,201.347,0,228.14,0,256    C0,397.385,114.615,512,256,512z"];
  TEnd "path";
  TChar "
	";
  TEnd "g";
  TChar "
	";
  TStart "g" [];
  TChar "
		";
  TStart "g" [];
  TChar "
			";
  TStart "path" [mkAttr "style" "fill:#674447;"; mkAttr "d" "M136.458,341.113c-2.107,0-4.214-0.804-5.822-2.412c-3.216-3.216-13.238-5.966-9.551-8.63     c20.52-14.827,53.809-58.967,65.613-83.147c2.822-5.777,2.324-6.364-2.404-11.953c-5.934-7.02-14.9-17.622-14.9-42.071     c0-4.547,3.683-8.234,8.234-8.234c4.551,0,8.234,3.687,8.234,8.234c0,18.418,5.846,25.333,11.008,31.436     c5.42,6.405,12.166,14.377,4.624,29.816c-12.649,25.908-42.319,68.618-60.66,86.96     C139.226,342.721,138.565,341.113,136.458,341.113z"];
  TEnd "path";
  TChar "
		";
  TEnd "g";
  TChar "
	";
  TEnd "g";
  TChar "
	";
  TStart "g" [];
  TChar "
		";
  TStart "g" [];
  TChar "
			";
  TStart "path" [mkAttr "style" "fill:#674447;"; mkAttr "d" "M185.871,275.241c-2.38,0-4.744-1.025-6.377-3.011c-2.879-3.514-2.372-8.704,1.142-11.587     c9.4-7.707,22.82-11.109,37.029-14.707c18.237-4.62,37.093-9.392,42.947-23.295c1.769-4.197,6.626-6.147,10.783-4.394     c4.197,1.765,6.159,6.594,4.398,10.787c-9.038,21.458-32.968,27.52-54.084,32.868c-12.375,3.132-24.075,6.095-30.62,11.471     C189.553,274.63,187.704,275.241,185.871,275.241z"];
  TEnd "path";
  TChar "
		";
  TEnd "g";
  TChar "
	";
  TEnd "g";
  TChar "
	";
  TStart "g" [];
  TChar "
		";
  TStart "path" [mkAttr "style" "fill:#9B5A6F;"; mkAttr "d" "M504,272c-13.611,0-25.596,6.829-32.821,17.215C468.898,288.496,466.518,288,464,288    c-13.255,0-24,10.745-24,24h65.782c2.847-12.749,4.746-25.849,5.612-39.237C508.991,272.31,506.537,272,504,272z"];
  TEnd "path";
  TChar "
	";
  TEnd "g";
  TChar "
";
  TEnd "g";
  TChar "
";
  TStart "g" [];
  TChar "
";
  TEnd "g";
  TChar "
";
  TStart "g" [];
  TChar "
";
  TEnd "g";
  TChar "
";
  TStart "g" [];
  TChar "
";
  TEnd "g";
  TChar "
";
  TStart "g" [];
  TChar "
";
  TEnd "g";
  TChar "
";
  TStart "g" [];
  TChar "
";
  TEnd "g";
  TChar "
";
  TStart "g" [];
  TChar "
";
  TEnd "g";
  TChar "
";
  TStart "g" [];
  TChar "
";
  TEnd "g";
  TChar "
";
  TStart "g" [];
  TChar "
";
  TEnd "g";
  TChar "
";
  TStart "g" [];
  TChar "
";
  TEnd "g";
  TChar "
";
  TStart "g" [];
  TChar "
";
  TEnd "g";
  TChar "
";
  TStart "g" [];
  TChar "
";
  TEnd "g";
  TChar "
";
  TStart "g" [];
  TChar "
";
  TEnd "g";
  TChar "
";
  TStart "g" [];
  TChar "
";
  TEnd "g";
  TChar "
";
  TStart "g" [];
  TChar "
";
  TEnd "g";
  TChar "
";
  TStart "g" [];
  TChar "
";
  TEnd "g";
  TChar "
";
  TEnd "svg"]%string.

(** testdata/landscapeIcons/iceberg.svg *)
Definition t_iceberg : list token := [
  TOther;
  TOther;
  TStart "svg" [mkAttr "version" "1.1"; mkAttr "id" "Capa_1"; mkAttr "xmlns" "http://www.w3.org/2000/svg"; mkAttr "xlink" "http://www.w3.org/1999/xlink"; mkAttr "x" "0px"; mkAttr "y" "0px"; mkAttr "viewBox" "0 0 512 512"; mkAttr "style" "enable-background:new 0 0 512 512;"; mkAttr "space" "preserve"];
  TChar "
";
  TStart "g" [];
  TChar "
	";
  TStart "g" [];
  TChar "
		";
  TStart "circle" [mkAttr "style" "fill:#8DD9FF;"; mkAttr "cx" "256"; mkAttr "cy" "256"; mkAttr "r" "256"];
  TEnd "circle";
  TChar "
	";
  TEnd "g";
  TChar "
	";
  TStart "g" [mkAttr "style" "opacity:0.3;"];
  TChar "
		";
  TStart "path" [mkAttr "style" "fill:#FFFFF4;"; mkAttr "d" "M5.886,201.439C2.066,219.027,0,237.269,0,256c0,18.732,2.067,36.973,5.886,54.561    C73.167,366.039,239.863,405.333,435,405.333c9.784,0,19.469-0.132,29.102-0.327C494.215,363.026,512,311.605,512,256    c0-55.605-17.786-107.027-47.898-149.007c-9.633-0.194-19.317-0.327-29.102-0.327C239.863,106.667,73.167,145.961,5.886,201.439z"];
  TEnd "path";
  TChar "
	";
  TEnd "g";
  TChar "
	";
  TStart "g" [mkAttr "style" "opacity:0.4;"];
  TChar "
		";
  TStart "path" [mkAttr "style" "fill:#FFFFF4;"; mkAttr "d" "M0,256c0,54.096,16.823,104.241,45.46,145.579c92.614,26.053,223.142,44.946,372.763,52.448    C475.466,407.077,512,335.811,512,256c0-34.044-6.703-66.507-18.767-96.221c-207.34,4.869-386.193,31.271-491.794,69.126    C0.501,237.811,0,246.846,0,256z"];
  TEnd "path";
  TChar "
	";
  TEnd "g";
  TChar "
	";
  TStart "g" [];
  TChar "
		";
  TStart "path" [mkAttr "style" "fill:#BBE6FF;"; mkAttr "d" "M176,144c-9,2-20,23-32,24s-34,0-40,8c-2.88,3.841-6.679,19.031-9.854,32H221.5l6.167-37.667    C217.667,163.333,185,142,176,144z"];
  TEnd "path";
  TChar "
	";
  TEnd "g";
  TChar "
	";
  TStart "g" [];
  TChar "
		";
  TStart "path" [mkAttr "style" "fill:#3B87C5;"; mkAttr "d" "M0,256c0,141.385,114.615,256,256,256s256-114.615,256-256c0-16.414-1.607-32.445-4.56-48H4.56    C1.607,223.555,0,239.586,0,256z"];
  TEnd "path";
  TChar "
	";
  TEnd "g";
  TChar "
	";
  TStart "g" [];
  TChar "
		";
  TStart "path" [mkAttr "style" "fill:#3C9BD4;"; mkAttr "d" "M255.576,256c-94.695,0-181.563,20.56-249.631,54.813    c24.11,110.479,119.506,194.291,235.598,200.757c4.82,0.159,9.603,0.43,14.474,0.43c0.064,0,0.127-0.005,0.191-0.005    c4.776-0.002,9.465-0.267,14.192-0.421c115.982-6.434,211.313-90.07,235.566-200.375C437.785,276.715,350.625,256,255.576,256z"];
  TEnd "path";
  TChar "
	";
  TEnd "g";
  TChar "
	";
  TStart "g" [];
  TChar "
		";
  TStart "path" [mkAttr "style" "fill:#FFFFFF;"; mkAttr "d" "M189.667,91.941c-2.518,0-4.898,0.496-7.179,1.215c-7.225-10.386-19.21-17.215-32.821-17.215    s-25.596,6.829-32.821,17.215c-2.281-0.719-4.661-1.215-7.179-1.215c-13.255,0-24,10.745-24,24h128    C213.667,102.686,202.922,91.941,189.667,91.941z"];
  TEnd "path";
  TChar "
	";
  TEnd "g";
  TChar "
	";
  TStart "g" [];
  TChar "
		";
  TStart "path" [mkAttr "style" "fill:#FFFFFF;"; mkAttr "d" "M157.667,94.335c0-11.4,9.241-20.641,20.641-20.641c1.721,0,3.366,0.272,4.963,0.669    c5.386-5.816,13.023-9.515,21.575-9.515c16.285,0,29.487,13.202,29.487,29.487H157.667z"];
  TEnd "path";
  TChar "
	";
  TEnd "g";
  TChar "
	";
  TStart "g" [mkAttr "style" "opacity:0.5;"];
  TChar "
		";
  TStart "path" [mkAttr "style" "fill:#FFFFFF;"; mkAttr "d" "M256,73.471c0-9.714,7.875-17.59,17.59-17.59c1.466,0,2.868,0.232,4.23,0.57    c4.59-4.957,11.098-8.108,18.386-8.108c13.878,0,25.128,11.25,25.128,25.128H256z"];
  TEnd "path";
  TChar "
	";
  TEnd "g";
  TChar "
	";
  TStart "g" [mkAttr "style" "opacity:0.5;"];
  TChar "
		";
  TStart "path" [mkAttr "style" "fill:#FFFFFF;"; mkAttr "d" "M397.333,143.868c0-9.714,7.875-17.59,17.59-17.59c1.466,0,2.868,0.232,4.23,0.57    c4.59-4.957,11.098-8.108,18.386-8.108c13.878,0,25.128,11.25,25.128,25.128H397.333z"];
  TEnd "path";
  TChar "
	";
  TEnd "g";
  TChar "
	";
  TStart "g" [mkAttr "style" "opacity:0.5;"];
  TChar "
		";
  TStart "path" [mkAttr "style" "fill:#FFFFFF;"; mkAttr "d" "M192.592,51.311c0-6.961,5.643-12.604,12.604-12.604c1.051,0,2.055,0.166,3.031,0.408    c3.289-3.552,7.952-5.81,13.175-5.81c9.944,0,18.006,8.062,18.006,18.006H192.592z"];
  TEnd "path";
  TChar "
	";
  TEnd "g";
  TChar "
	";
  TStart "g" [];
  TChar "
		";
  TStart "path" [mkAttr "style" "fill:#FFFFFF;"; mkAttr "d" "M348.333,128c0-12.887,10.447-23.333,23.333-23.333c1.945,0,3.805,0.308,5.611,0.756    c6.088-6.575,14.721-10.756,24.389-10.756C420.076,94.667,435,109.591,435,128H348.333z"];
  TEnd "path";
  TChar "
	";
  TEnd "g";
  TChar "
	";
  TStart "g" [];
  TChar "
		";
  TStart "path" [mkAttr "style" "fill:#BBE6FF;"; mkAttr "d" "M408,208c0-25.333-21.793-35.119-32-40c-12.104-5.788-37.333-4-48-24s-18.037-32-24-32    c-11.333,0-39.333,5.333-56,24c-13.555,15.182-10.667,29.333-32,40c-6.422,3.211-24,7.963-24,32c0,0.667,0,30,0,40    c0,30,34.667,50.667,48,56s30.211,136,48,136c17.333,0,37.333-65.333,48-72s32-7.889,32-40c0-31.333,0-72,0-72    C389.318,234.682,408,260,408,208z"];
  TEnd "path";
  TChar "
	";
  TEnd "g";
  TChar "
	";
  TStart "g" [];
  TChar "
		";
  TStart "path" [mkAttr "style" "fill:#75C3F0;"; mkAttr "d" "M94.146,208c-1.323,5.404-2.541,10.432-3.534,14.077c-1.7,6.24-0.719,12.846,2.724,18.322    C103.738,256.944,125.903,293.095,128,304c7.5,39,24,44,32,64c4.152,10.38,25.5,4,32,0c9.173-5.645,24-72,24-72l5.5-88H94.146z"];
  TEnd "path";
  TChar "
	";
  TEnd "g";
  TChar "
	";
  TStart "g" [];
  TChar "
		";
  TStart "path" [mkAttr "style" "fill:#8DD9FF;"; mkAttr "d" "M240,304c13.333,5.333,30.211,136,48,136c17.333,0,37.333-65.333,48-72    c10.667-6.667,32-7.889,32-40c0-31.333,0-72,0-72c21.318-21.318,40,4,40-48H192c0,0.667,0,30,0,40    C192,278,226.667,298.667,240,304z"];
  TEnd "path";
  TChar "
	";
  TEnd "g";
  TChar "
	";
  TStart "g" [];
  TChar "
		";
  TStart "path" [mkAttr "style" "fill:#FFFFFF;"; mkAttr "d" "M176,144c-9,2-20,23-32,24s-34,0-40,8c-2.032,2.709-4.518,11.085-6.923,20.324    c11.61,0.918,14.792-10.321,17.256-14.324c2.667-4.333,17.333-2.333,27.333-3.667c10-1.333,9.333,6.333,19.24,8.667    c9.906,2.333,11.76-20.333,16.427-24.667C182,158,216,176,223.667,181.667l2.69-3.33l1.31-8.003C217.667,163.333,185,142,176,144z    "];
  TEnd "path";
  TChar "
	";
  TEnd "g";
  TChar "
	";
  TStart "g" [];
  TChar "
		";
  TStart "path" [mkAttr "style" "fill:#FFFFFF;"; mkAttr "d" "M376,168c-12.104-5.788-37.333-4-48-24s-18.037-32-24-32c-11.333,0-39.333,5.333-56,24    c-13.555,15.182-10.667,29.333-32,40c-6.199,3.1-22.642,7.808-23.787,29.738C200.5,194.5,227,187.5,243.5,191.5    c10.866,2.634,3.5,10.861,16.058,10.861c9.434,0,8.668-40.107,15.442-46.361c6.5-6,13.579-4.423,18,12c7,26,51,6.5,107.667,17.643    l0,0C393.384,176.072,382.41,171.065,376,168z"];
  TEnd "path";
  TChar "
	";
  TEnd "g";
  TChar "
	";
  TStart "g" [];
  TChar "
		";
  TStart "path" [mkAttr "style" "fill:#FFFFFF;"; mkAttr "d" "M2.952,217h506.096c-0.462-3.025-1.04-6.011-1.607-9H4.56C3.992,210.989,3.415,213.975,2.952,217z"];
  TEnd "path";
  TChar "
	";
  TEnd "g";
  TChar "
	";
  TStart "g" [];
  TChar "
		";
  TStart "path" [mkAttr "style" "fill:#75C3F0;"; mkAttr "d" "M330,290.818c0-19.026-14.667-22.769-14.667-8.627c0,8.162-11.625,15.649-18.893,5.309    c-5.928-8.433-7.773-32.911-7.773-44.167c0-22.333-18.154-23.515-18.154-0.677c0,33.343-14.558,27.524-14.558,40.677    C255.955,308,269,329,256,345c-0.2,0.246-0.339,0.571-0.527,0.833C265.469,385.841,276.545,440,288,440    c17.333,0,37.333-65.333,48-72c4.379-2.737,10.551-4.583,16.312-8C334,358,330,327.008,330,290.818z"];
  TEnd "path";
  TChar "
	";
  TEnd "g";
  TChar "
	";
  TStart "g" [];
  TChar "
		";
  TStart "path" [mkAttr "style" "fill:#5AB0E2;"; mkAttr "d" "M185.5,302.5c0-25.167,1.5-39.833-8.5-44.167c-8.867-3.842-18.75,8.417-21.352-2.333    c-4.783-19.763-4.981-26.479-11.384-26.479c-6.265,0-8.765,9.897-8.765,34.479c0,37.068,3.833,42.903-5.933,47.142    C137.602,343.698,152.518,349.293,160,368c4.152,10.38,25.5,4,32,0c6.152-3.786,14.83-34.83,19.89-54.899    C207.333,324,185.5,324.701,185.5,302.5z"];
  TEnd "path";
  TChar "
	";
  TEnd "g";
  TChar "
";
  TEnd "g";
  TChar "
";
  TStart "g" [];
  TChar "
";
  TEnd "g";
  TChar "
";
  TStart "g" [];
  TChar "
";
  TEnd "g";
  TChar "
";
  TStart "g" [];
  TChar "
";
  TEnd "g";
  TChar "
";
  TStart "g" [];
  TChar "
";
  TEnd "g";
  TChar "
";
  TStart "g" [];
  TChar "
";
  TEnd "g";
  TChar "
";
  TStart "g" [];
  TChar "
";
  TEnd "g";
  TChar "
";
  TStart "g" [];
  TChar "
";
  TEnd "g";
  TChar "
";
  TStart "g" [];
  TChar "
";
  TEnd "g";
  TChar "
";
  TStart "g" [];
  TChar "
";
  TEnd "g";
  TChar "
";
  TStart "g" [];
  TChar "
";
  TEnd "g";
  TChar "
";
  TStart "g" [];
  TChar "
";
  TEnd "g";
  TChar "
";
  TStart "g" [];
  TChar "
";
  TEnd "g";
  TChar "
";
  TStart "g" [];
  TChar "
";
  TEnd "g";
  TChar "
";
  TStart "g" [];
  TChar "
";
  TEnd "g";
  TChar "
";
  TStart "g" [];
  TChar "
";
  TEnd "g";
  TChar "
";
  TEnd "svg"]%string.

(** testdata/landscapeIcons/island.svg *)
Definition t_island : list token := [
  TOther;
  TOther;
  TStart "svg" [mkAttr "version" "1.1"; mkAttr "id" "Capa_1"; mkAttr "xmlns" "http://www.w3.org/2000/svg"; mkAttr "xlink" "http://www.w3.org/1999/xlink"; mkAttr "x" "0px"; mkAttr "y" "0px"; mkAttr "viewBox" "0 0 512 512"; mkAttr "style" "enable-background:new 0 0 512 512;"; mkAttr "space" "preserve"];
  TChar "
";
  TStart "g" [];
  TChar "
	";
  TStart "g" [];
  TChar "
		";
  TStart "circle" [mkAttr "style" "fill:#8DD9FF;"; mkAttr "cx" "256"; mkAttr "cy" "256"; mkAttr "r" "256"];
  TEnd "circle";
  TChar "
	";
  TEnd "g";
  TChar "
	";
  TStart "g" [];
  TChar "
		";
  TStart "path" [mkAttr "style" "fill:#3C9BD4;"; mkAttr "d" "M1.156,280C13.262,410.125,122.713,512,256,512s242.738-101.875,254.844-232H1.156z"];
  TEnd "path";
  TChar "
	";
  TEnd "g";
  TChar "
	";
  TStart "g" [mkAttr "style" "opacity:0.35;"];
  TChar "
		";
  TStart "path" [mkAttr "style" "fill:#9AF4EF;"; mkAttr "d" "M489.545,360.883c11.275-25.079,18.64-52.297,21.299-80.883H1.156    c1.912,20.548,6.263,40.386,12.74,59.236C104.786,349.285,344.192,358.981,489.545,360.883z"];
  TEnd "path";
  TChar "
	";
  TEnd "g";
  TChar "
	";
  TStart "g" [];
  TChar "
		";
  TStart "path" [mkAttr "style" "fill:#93DDE8;"; mkAttr "d" "M2.638,292H509.22c0.563-3.994,1.247-7.949,1.624-12H1.156C1.532,284.036,2.077,288.021,2.638,292z    "];
  TEnd "path";
  TChar "
	";
  TEnd "g";
  TChar "
	";
  TStart "g" [];
  TChar "
		";
  TStart "path" [mkAttr "style" "fill:#52C883;"; mkAttr "d" "M216,176c-26.667,10.667-56,11.333-64,17.333C145.954,197.868,101.822,280,51.822,280h169.199    L216,176z"];
  TEnd "path";
  TChar "
	";
  TEnd "g";
  TChar "
	";
  TStart "g" [];
  TChar "
		";
  TStart "path" [mkAttr "style" "fill:#926E79;"; mkAttr "d" "M165.333,238c-10.677-1.695-31.964-3.986-37-4.167c-2.447-0.088-13.583-5.987-19.083-5.987    c-7.601,0-12.138,16.154-21,26.079c-5.151,5.768-26,26.075-45,26.075s63.25,0,63.25,0L165.333,238z"];
  TEnd "path";
  TChar "
	";
  TEnd "g";
  TChar "
	";
  TStart "g" [];
  TChar "
		";
  TStart "path" [mkAttr "style" "fill:#52C883;"; mkAttr "d" "M472,280c-21.333,0-57.692-48.099-80-72c-18.667-20-50.025,12-64.025,12v60H472z"];
  TEnd "path";
  TChar "
	";
  TEnd "g";
  TChar "
	";
  TStart "g" [];
  TChar "
		";
  TStart "path" [mkAttr "style" "fill:#FFFFFF;"; mkAttr "d" "M183.359,107.301c-0.97,0-1.898,0.153-2.799,0.377c-3.038-3.28-7.344-5.366-12.167-5.366    c-3.042,0-5.855,0.877-8.308,2.302c-3.041-2.322-6.796-3.755-10.918-3.755c-1.507,0-2.948,0.239-4.348,0.586    c-4.718-5.095-11.408-8.335-18.9-8.335c-14.266,0-25.831,11.565-25.831,25.831h51.675h15.485H195    C195,112.512,189.788,107.301,183.359,107.301z"];
  TEnd "path";
  TChar "
	";
  TEnd "g";
  TChar "
	";
  TStart "g" [mkAttr "style" "opacity:0.5;"];
  TChar "
		";
  TStart "path" [mkAttr "style" "fill:#FFFFFF;"; mkAttr "d" "M175.628,162.688c0-7.225-5.857-13.081-13.081-13.081c-1.09,0-2.133,0.172-3.146,0.424    c-3.413-3.686-8.253-6.03-13.673-6.03c-10.321,0-18.688,8.367-18.688,18.688H175.628z"];
  TEnd "path";
  TChar "
	";
  TEnd "g";
  TChar "
	";
  TStart "g" [mkAttr "style" "opacity:0.5;"];
  TChar "
		";
  TStart "path" [mkAttr "style" "fill:#FFFFFF;"; mkAttr "d" "M422.527,159.053c-1.06,0-2.074,0.168-3.059,0.412c-3.319-3.585-8.026-5.864-13.297-5.864    c-5.139,0-9.759,2.152-13.064,5.582c-3.301-3.406-7.861-5.582-12.979-5.582c-10.037,0-18.173,8.137-18.173,18.173h26.043h21.208    h26.043C435.248,164.749,429.553,159.053,422.527,159.053z"];
  TEnd "path";
  TChar "
	";
  TEnd "g";
  TChar "
	";
  TStart "g" [];
  TChar "
		";
  TStart "path" [mkAttr "style" "fill:#FFFFFF;"; mkAttr "d" "M399.75,124.9c0-11.913-9.658-21.571-21.571-21.571c-2.263,0-4.402,0.445-6.452,1.092    c-6.494-9.335-17.266-15.473-29.5-15.473c-9.087,0-17.359,3.397-23.679,8.964c-5.262-6.546-13.307-10.76-22.36-10.76    c-8.328,0-15.763,3.601-21.008,9.265c-1.556-0.386-3.157-0.651-4.833-0.651c-11.1,0-20.098,8.999-20.098,20.098h36.496    c-1.278,2.757-2.042,5.797-2.042,9.036H399.75z"];
  TEnd "path";
  TChar "
	";
  TEnd "g";
  TChar "
	";
  TStart "g" [mkAttr "style" "opacity:0.5;"];
  TChar "
		";
  TStart "path" [mkAttr "style" "fill:#FFFFFF;"; mkAttr "d" "M232.5,62.542h39.834c0-6.28-5.091-11.371-11.371-11.371c-1.193,0-2.321,0.235-3.401,0.576    c-3.423-4.921-9.102-8.156-15.55-8.156s-12.127,3.235-15.55,8.156c-1.081-0.341-2.208-0.576-3.401-0.576    c-3.393,0-6.404,1.516-8.487,3.872c-3.625-2.421-7.884-3.959-12.572-3.959c-7.798,0-14.665,3.912-18.804,9.863    c-1.307-0.412-2.67-0.696-4.113-0.696c-7.594,0-13.75,6.156-13.75,13.75h73.333C238.667,69.211,236.213,65.003,232.5,62.542z"];
  TEnd "path";
  TChar "
	";
  TEnd "g";
  TChar "
	";
  TStart "g" [];
  TChar "
		";
  TStart "path" [mkAttr "style" "fill:#52C883;"; mkAttr "d" "M64,280c25,0,69.333-17.333,80-32c6.576-9.042,14.18-27.765,21.333-33.604    c9.329-7.614,17.333-7.73,26.667-14.396s50.667-56,64-56c13.333,0,39,30,56,40c18.567,10.922,26.873,38.209,48,48    c27.333,12.667,38.667,48,72,48"];
  TEnd "path";
  TChar "
	";
  TEnd "g";
  TChar "
	";
  TStart "g" [];
  TChar "
		";
  TStart "path" [mkAttr "style" "fill:#34BE69;"; mkAttr "d" "M253.971,280c9.229-3.167,15.029-5.25,15.029-5.25c-15.211-2.34-15.458-22.427-31.358-28.927    s-30.775,1.478-40.009-10.823C189,223.5,191.425,214.353,182,212c-2.52-0.629-4.678-2.015-6.57-3.756    c-3.272,1.489-6.591,3.291-10.097,6.152C158.18,220.234,150.576,238.958,144,248c-6.872,9.448-27.713,19.978-48.358,26.292    c-1.538,2.053-2.944,3.958-4.214,5.708H253.971z"];
  TEnd "path";
  TChar "
	";
  TEnd "g";
  TChar "
	";
  TStart "g" [];
  TChar "
		";
  TStart "path" [mkAttr "style" "fill:#53DC92;"; mkAttr "d" "M360,232c-21.127-9.791-29.434-37.079-48-48c-17-10-42.667-40-56-40    c-5.077,0-14.217,7.165-24.101,16.391c6.386-2.185,14.416-3.912,22.101-3.724c13.667,0.333,11.333,11.667,28.333,22.532    c17,10.865,28,28.135,30.667,39.468s12.333,17,25.667,22.045c13.333,5.045,17,9.288,22,17.621c0,0,19.06,3.546,37.935,7.027    C386.203,254.105,375.752,239.3,360,232z"];
  TEnd "path";
  TChar "
	";
  TEnd "g";
  TChar "
	";
  TStart "g" [];
  TChar "
		";
  TStart "path" [mkAttr "style" "fill:#926E79;"; mkAttr "d" "M200,304c0,0-16.333-35.333-29.667-35.333c-30,0-31,35.333-58.333,35.333"];
  TEnd "path";
  TChar "
	";
  TEnd "g";
  TChar "
	";
  TStart "g" [];
  TChar "
		";
  TStart "path" [mkAttr "style" "fill:none;stroke:#646464;stroke-width:2;stroke-linecap:round;stroke-linejoin:round;stroke-miterlimit:10;"; mkAttr "d" "    M112,304"];
  TEnd "path";
  TChar "
	";
  TEnd "g";
  TChar "
	";
  TStart "g" [];
  TChar "
		";
  TStart "path" [mkAttr "style" "fill:#926E79;"; mkAttr "d" "M427.601,280c0.105-0.083,0.31-0.243,0.31-0.243c-15.552-4.529-13.323-27.229-33.911-25.424    c-19,1.667-21.667-5.333-33.333-0.408c-11.44,4.83-14.667,7.408-31.333,4.741c-16.666-2.667-29.299,14.167-56.966,13.833    c-8.581-0.103-4.979-1.833-10.618,7.5H427.601z"];
  TEnd "path";
  TChar "
	";
  TEnd "g";
  TChar "
	";
  TStart "g" [];
  TChar "
		";
  TStart "path" [mkAttr "style" "fill:#926E79;"; mkAttr "d" "M217.738,212c9.815,9.346,32.012-11.25,36.512-17.25s16.75-7.25,26.25-0.394    c9.5,6.856,15.092,9.236,25,4.644c10.25-4.75,14.984-3.032,22.378,0.065c-4.737-5.977-9.729-11.448-15.878-15.065    c-17-10-42.667-40-56-40c-11.48,0-43.67,36.513-58.367,50.935c5.617-2.935,10.313-4.456,16.117,0.315    C219.242,199.764,212.75,207.25,217.738,212z"];
  TEnd "path";
  TChar "
	";
  TEnd "g";
  TChar "
	";
  TStart "g" [];
  TChar "
		";
  TStart "path" [mkAttr "style" "fill:#A17988;"; mkAttr "d" "M252.825,144.745c-0.553,0.208-1.11,0.424-1.712,0.72c-0.41,0.203-0.848,0.457-1.279,0.697    c-0.544,0.303-1.091,0.614-1.666,0.975c-0.508,0.32-1.032,0.671-1.562,1.033c-0.536,0.366-1.079,0.745-1.636,1.15    c-0.602,0.438-1.21,0.893-1.834,1.374c-0.497,0.384-1.004,0.788-1.514,1.197c-0.721,0.58-1.444,1.164-2.188,1.79    c-0.378,0.317-0.764,0.654-1.147,0.983c-0.889,0.763-1.78,1.53-2.692,2.346c-0.069,0.062-0.139,0.127-0.208,0.189    c-1.149,1.031-2.312,2.093-3.488,3.191c6.386-2.185,14.416-3.912,22.101-3.724c13.667,0.333,11.333,11.667,28.333,22.532    c8.885,5.679,16.081,13.104,21.355,20.521c0.603-0.238,1.176-0.424,1.811-0.719c10.25-4.75,14.984-3.032,22.378,0.065    c-1.606-2.027-3.268-3.953-4.968-5.812c-1.107-1.201-2.234-2.371-3.406-3.463c-0.585-0.55-1.187-1.075-1.792-1.593    c-1.816-1.542-3.681-3.003-5.712-4.198c-17-10-42.667-40-56-40c-0.679,0-1.442,0.148-2.258,0.392    C253.454,144.478,253.129,144.631,252.825,144.745z"];
  TEnd "path";
  TChar "
	";
  TEnd "g";
  TChar "
	";
  TStart "g" [];
  TChar "
		";
  TStart "path" [mkAttr "style" "fill:#674447;"; mkAttr "d" "M121,280c-12.5,0-13.5-10.5-27.5-10.5S78,280,73.5,280C69,280,121,280,121,280z"];
  TEnd "path";
  TChar "
	";
  TEnd "g";
  TChar "
	";
  TStart "g" [];
  TChar "
		";
  TStart "path" [mkAttr "style" "fill:#674447;"; mkAttr "d" "M325,280c-7.5,0-9.75-7-34.75-8.25c-11.236-0.562-7.849-1.586-22.004-1.586    c-14.155,0-18.308,5.069-25.527,5.069c-7.219,0-14.484,4.767-14.484,4.767H325z"];
  TEnd "path";
  TChar "
	";
  TEnd "g";
  TChar "
	";
  TStart "g" [];
  TChar "
		";
  TStart "path" [mkAttr "style" "fill:#53DC92;"; mkAttr "d" "M392,208c-10.159-10.885-24.07-6.35-36.904,0.029c7.237,8.305,19.584-3.434,28.237,3.971    c11.11,9.507,30.215,37.667,40.864,50.743C436.119,277.383,436.667,280,472,280C450.667,280,414.308,231.901,392,208z"];
  TEnd "path";
  TChar "
	";
  TEnd "g";
  TChar "
	";
  TStart "g" [];
  TChar "
		";
  TStart "path" [mkAttr "style" "fill:#A17988;"; mkAttr "d" "M208.333,304h-18c-3-25.333-21.68-37.579-32.166-32.998c0,0,20.166-12.835,34.833,3.748    S208.333,304,208.333,304z"];
  TEnd "path";
  TChar "
	";
  TEnd "g";
  TChar "
	";
  TStart "g" [];
  TChar "
		";
  TStart "path" [mkAttr "style" "fill:#A17988;"; mkAttr "d" "M427.911,279.757c-15.552-4.529-13.323-27.229-33.911-25.424c-19,1.667-21.667-5.333-33.333-0.407    c-6.581,2.778-10.489,4.767-15.756,5.485c0.842,0.442,1.666,0.786,2.423,0.879c5.016,0.618,11.333,6.709,22.333,2.042    c11-4.667,11.333-0.333,20.333,3.027c7.47,2.789,7.423,10.965,11.364,14.64h26.237    C427.706,279.917,427.911,279.757,427.911,279.757z"];
  TEnd "path";
  TChar "
	";
  TEnd "g";
  TChar "
";
  TEnd "g";
  TChar "
";
  TStart "g" [];
  TChar "
";
  TEnd "g";
  TChar "
";
  TStart "g" [];
  TChar "
";
  TEnd "g";
  TChar "
";
  TStart "g" [];
  TChar "
";
  TEnd "g";
  TChar "
";
  TStart "g" [];
  TChar "
";
  TEnd "g";
  TChar "
";
  TStart "g" [];
  TChar "
";
  TEnd "g";
  TChar "
";
  TStart "g" [];
  TChar "
";
  TEnd "g";
  TChar "
";
  TStart "g" [];
  TChar "
";
  TEnd "g";
  TChar "
";
  TStart "g" [];
  TChar "
";
  TEnd "g";
  TChar "
";
  TStart "g" [];
  TChar "
";
  TEnd "g";
  TChar "
";
  TStart "g" [];
  TChar "
";
  TEnd "g";
  TChar "
";
  TStart "g" [];
  TChar "
";
  TEnd "g";
  TChar "
";
  TStart "g" [];
  TChar "
";
  TEnd "g";
  TChar "
";
  TStart "g" [];
  TChar "
";
  TEnd "g";
  TChar "
";
  TStart "g" [];
  TChar "
";
  TEnd "g";
  TChar "
";
  TStart "g" [];
  TChar "
";
  TEnd "g";
  TChar "
";
  TEnd "svg"]%string.

(** testdata/landscapeIcons/mountains.svg *)
Definition t_mountains : list token := [
  TOther;
  TOther;
  TStart "svg" [mkAttr "version" "1.1"; mkAttr "id" "Capa_1"; mkAttr "xmlns" "http://www.w3.org/2000/svg"; mkAttr "xlink" "http://www.w3.org/1999/xlink"; mkAttr "x" "0px"; mkAttr "y" "0px"; mkAttr "viewBox" "0 0 512 512"; mkAttr "style" "enable-background:new 0 0 512 512;"; mkAttr "space" "preserve"];
  TChar "
";
  TStart "g" [];
  TChar "
	";
  TStart "g" [];
  TChar "
		";
  TStart "circle" [mkAttr "style" "fill:#9DA6ED;"; mkAttr "cx" "256"; mkAttr "cy" "256"; mkAttr "r" "256"];
  TEnd "circle";
  TChar "
	";
  TEnd "g";
  TChar "
	";
  TStart "g" [mkAttr "style" "opacity:0.3;"];
  TChar "
		";
  TStart "circle" [mkAttr "style" "fill:#FFC8A9;"; mkAttr "cx" "256"; mkAttr "cy" "250.199"; mkAttr "r" "158.634"];
  TEnd "circle";
  TChar "
	";
  TEnd "g";
  TChar "
	";
  TStart "g" [mkAttr "style" "opacity:0.3;"];
  TChar "
		";
  TStart "circle" [mkAttr "style" "fill:#FFD7A8;"; mkAttr "cx" "256"; mkAttr "cy" "250.199"; mkAttr "r" "84.31"];
  TEnd "circle";
  TChar "
	";
  TEnd "g";
  TChar "
	";
  TStart "g" [];
  TChar "
		";
  TStart "path" [mkAttr "style" "fill:#A17988;"; mkAttr "d" "M508.242,299.51c-5.469-8.825-28.003-43.51-44.353-43.51c-20.604,0-48.39,56-66.602,56    c-14.569,0-32.78-32-41.626-32c-8.325,0-44.228,48-58.276,48c-24.976,0-77.702,0-116.552,0c-24.976,0-58.993-53.765-66.602-64    c-6.938-9.333-24.976-8-24.976-8S42.08,328,14.33,328h-3.992C41.451,434.318,139.624,512,256,512    C382.544,512,487.573,420.158,508.242,299.51z"];
  TEnd "path";
  TChar "
	";
  TEnd "g";
  TChar "
	";
  TStart "g" [];
  TChar "
		";
  TStart "path" [mkAttr "style" "fill:#926E79;"; mkAttr "d" "M366.942,288.094C360,286.5,358.75,300.5,351,301.5c-10.888,1.405-14,24-18,31.5    s-15,14.5-25.5,14.5c-10.5,0-22.198,16.573-34.75,23.75c0,0,117.25,35.75,156.75,35.75c17.875,0,31.62-5.651,42.231-13.253    c17.994-28.141,30.651-60.026,36.512-94.237c-3.598-5.805-14.585-22.76-26.334-33.711C474.993,264.795,468.64,264.18,467,265    c-4,2-8.5,4-11.5,12.865c-3,8.865-18,15.135-26,21.635s-7.5,22-14.866,23.5s-8.634-5-17.346-11    C387.498,312,376.075,297.574,366.942,288.094z"];
  TEnd "path";
  TChar "
	";
  TEnd "g";
  TChar "
	";
  TStart "g" [];
  TChar "
		";
  TStart "path" [mkAttr "style" "fill:#926E79;"; mkAttr "d" "M176.667,348c-11.56,3.287-17.417-1.25-21.333-10c-7.239-16.172-44.592-55.461-52.667-55    C91,283.667,88.167,277.167,82,282.272c-4.668,3.865-42.134,31.254-53.312,34.964c-5.313,1.764-16.123,3.317-20.32,3.826    c6.828,26.055,17.695,50.457,31.831,72.574c7.367,1.321,16.408,2.047,27.802,1.696C111.333,394,211.5,373,211.5,373    C201.559,362.445,194.25,343,176.667,348z"];
  TEnd "path";
  TChar "
	";
  TEnd "g";
  TChar "
	";
  TStart "g" [];
  TChar "
		";
  TStart "path" [mkAttr "style" "fill:#86646A;"; mkAttr "d" "M97.852,336c-10.601,0-36.398,32-59.367,32c-5.041,0-9.167,0-12.642,0    C67.384,453.239,154.796,512,256,512c107.551,0,199.526-66.359,237.412-160.343C477.927,348.28,471.01,320,462.537,320    c-7.421,0-49.826,32-59.368,32c-14.842,0-17.669-24-33.924-24s-15.902,40-33.924,40c-13.782,0-11.308-8-25.442-8    c-5.631,0-8.482,8-16.96,8c-21.831,0-42.232,0-50.89,0c-12.015,0-25.796-16-33.924-16c-8.746,0-21.91,16-42.405,16    C121.881,368,114.814,336,97.852,336z"];
  TEnd "path";
  TChar "
	";
  TEnd "g";
  TChar "
	";
  TStart "g" [];
  TChar "
		";
  TStart "path" [mkAttr "style" "fill:#745154;"; mkAttr "d" "M256,512c105.34,0,195.784-63.644,235.071-154.56C479.75,355,471.75,349.25,467.25,340    c-3.039-6.246-11.033-3.865-12.75-2.14c-10.75,10.8-29.365,46.106-39.866,46.106c-5.384,0-33.419-37.485-37.634-37.967    c-8.75-1-13.5,16.5-33,23.5c-8.165,2.931-11.5,13.434-21,14.467C313.5,385,298.5,380.5,289,388    c-9.5,7.5-50.96,31.796-61.329,29.152c-9.421-2.402-7.083-16.198-8.171-21.731c-2-10.171-6.5-23.671-14-18.921    c-5.491,3.478-20.667,0.219-29.167,1.5s-34,27.333-48.333,22c-6.374-2.372-19-37.5-25-38s-8.271,1.076-12.5,3    c-10.428,4.745-37.857,14.635-54.973,21.075C80.082,461.431,162.116,512,256,512z"];
  TEnd "path";
  TChar "
	";
  TEnd "g";
  TChar "
	";
  TStart "g" [];
  TChar "
		";
  TStart "circle" [mkAttr "style" "fill:#FFFFFF;"; mkAttr "cx" "256"; mkAttr "cy" "250.199"; mkAttr "r" "37.532"];
  TEnd "circle";
  TChar "
	";
  TEnd "g";
  TChar "
	";
  TStart "g" [mkAttr "style" "opacity:0.5;"];
  TChar "
		";
  TStart "path" [mkAttr "style" "fill:#FFFFFF;"; mkAttr "d" "M152.764,166.731h63.119c0-22.091-17.909-40-40-40c-11.602,0-21.961,5.017-29.267,12.907    c-2.167-0.538-4.399-0.907-6.733-0.907c-9.529,0-17.92,4.782-22.978,12.054c-5.259-2.561-11.132-4.054-17.378-4.054    c-13.611,0-25.596,6.829-32.821,17.215c-2.281-0.719-4.661-1.215-7.179-1.215c-13.255,0-24,10.745-24,24h128    C163.527,178.372,159.244,171.029,152.764,166.731z"];
  TEnd "path";
  TChar "
	";
  TEnd "g";
  TChar "
	";
  TStart "g" [mkAttr "style" "opacity:0.5;"];
  TChar "
		";
  TStart "path" [mkAttr "style" "fill:#FFFFFF;"; mkAttr "d" "M445.634,160c-11.602,0-21.961,5.017-29.267,12.907c-2.167-0.538-4.399-0.907-6.733-0.907    c-10.721,0-19.923,6.093-24.628,14.942c-3.244-3.093-7.613-5.02-12.449-5.02c-5.243,0-9.924,2.268-13.226,5.833    c-0.979-0.243-1.988-0.41-3.043-0.41c-6.988,0-12.654,5.665-12.654,12.654h38h9h95C485.634,177.909,467.725,160,445.634,160z"];
  TEnd "path";
  TChar "
	";
  TEnd "g";
  TChar "
	";
  TStart "g" [mkAttr "style" "opacity:0.3;"];
  TChar "
		";
  TStart "path" [mkAttr "style" "fill:#FFFFFF;"; mkAttr "d" "M272.25,150.192c0-9.07,7.353-16.423,16.423-16.423c1.369,0,2.678,0.217,3.949,0.532    c4.285-4.628,10.362-7.571,17.166-7.571c12.957,0,23.462,10.504,23.462,23.462H272.25z"];
  TEnd "path";
  TChar "
	";
  TEnd "g";
  TChar "
	";
  TStart "g" [];
  TChar "
		";
  TStart "path" [mkAttr "style" "fill:#674447;"; mkAttr "d" "M256,512c64.907,0,124.039-24.283,169.135-64.107C366.188,446.731,324.094,400,301.088,400    c-37.738,0-87.17,54.667-108.211,56c-21.041,1.333-51.851-32.667-72.14-24c-16.792,7.172-30.343,13.363-34.569,15.308    C131.35,487.491,190.766,512,256,512z"];
  TEnd "path";
  TChar "
	";
  TEnd "g";
  TChar "
	";
  TStart "g" [mkAttr "style" "opacity:0.5;"];
  TChar "
		";
  TStart "circle" [mkAttr "style" "fill:#FFFFFF;"; mkAttr "cx" "213.75"; mkAttr "cy" "57.333"; mkAttr "r" "6"];
  TEnd "circle";
  TChar "
	";
  TEnd "g";
  TChar "
	";
  TStart "g" [mkAttr "style" "opacity:0.15;"];
  TChar "
		";
  TStart "circle" [mkAttr "style" "fill:#FFFFFF;"; mkAttr "cx" "263.299"; mkAttr "cy" "39.333"; mkAttr "r" "6"];
  TEnd "circle";
  TChar "
	";
  TEnd "g";
  TChar "
	";
  TStart "g" [mkAttr "style" "opacity:0.15;"];
  TChar "
		";
  TStart "circle" [mkAttr "style" "fill:#FFFFFF;"; mkAttr "cx" "314.532"; mkAttr "cy" "72"; mkAttr "r" "6"];
  TEnd "circle";
  TChar "
	";
  TEnd "g";
  TChar "
	";
  TStart "g" [mkAttr "style" "opacity:0.15;"];
  TChar "
		";
  TStart "circle" [mkAttr "style" "fill:#FFFFFF;"; mkAttr "cx" "375.333"; mkAttr "cy" "108"; mkAttr "r" "6"];
  TEnd "circle";
  TChar "
	";
  TEnd "g";
  TChar "
	";
  TStart "g" [mkAttr "style" "opacity:0.5;"];
  TChar "
		";
  TStart "circle" [mkAttr "style" "fill:#FFFFFF;"; mkAttr "cx" "262"; mkAttr "cy" "102"; mkAttr "r" "6"];
  TEnd "circle";
  TChar "
	";
  TEnd "g";
  TChar "
	";
  TStart "g" [mkAttr "style" "opacity:0.5;"];
  TChar "
		";
  TStart "circle" [mkAttr "style" "fill:#FFFFFF;"; mkAttr "cx" "369.333"; mkAttr "cy" "66"; mkAttr "r" "6"];
  TEnd "circle";
  TChar "
	";
  TEnd "g";
  TChar "
	";
  TStart "g" [mkAttr "style" "opacity:0.15;"];
  TChar "
		";
  TStart "circle" [mkAttr "style" "fill:#FFFFFF;"; mkAttr "cx" "161.69"; mkAttr "cy" "51.333"; mkAttr "r" "6"];
  TEnd "circle";
  TChar "
	";
  TEnd "g";
  TChar "
	";
  TStart "g" [mkAttr "style" "opacity:0.15;"];
  TChar "
		";
  TStart "circle" [mkAttr "style" "fill:#FFFFFF;"; mkAttr "cx" "219.75"; mkAttr "cy" "114"; mkAttr "r" "6"];
  TEnd "circle";
  TChar "
	";
  TEnd "g";
  TChar "
	";
  TStart "g" [mkAttr "style" "opacity:0.5;"];
  TChar "
		";
  TStart "circle" [mkAttr "style" "fill:#FFFFFF;"; mkAttr "cx" "115.934"; mkAttr "cy" "96"; mkAttr "r" "6"];
  TEnd "circle";
  TChar "
	";
  TEnd "g";
  TChar "
";
  TEnd "g";
  TChar "
";
  TStart "g" [];
  TChar "
";
  TEnd "g";
  TChar "
";
  TStart "g" [];
  TChar "
";
  TEnd "g";
  TChar "
";
  TStart "g" [];
  TChar "
";
  TEnd "g";
  TChar "
";
  TStart "g" [];
  TChar "
";
  TEnd "g";
  TChar "
";
  TStart "g" [];
  TChar "
";
  TEnd "g";
  TChar "
";
  TStart "g" [];
  TChar "
";
  TEnd "g";
  TChar "
";
  TStart "g" [];
  TChar "
";
  TEnd "g";
  TChar "
";
  TStart "g" [];
  TChar "
";
  TEnd "g";
  TChar "
";
  TStart "g" [];
  TChar "
";
  TEnd "g";
  TChar "
";
  TStart "g" [];
  TChar "
";
  TEnd "g";
  TChar "
";
  TStart "g" [];
  TChar "
";
  TEnd "g";
  TChar "
";
  TStart "g" [];
  TChar "
";
  TEnd "g";
  TChar "
";
  TStart "g" [];
  TChar "
";
  TEnd "g";
  TChar "
";
  TStart "g" [];
  TChar "
";
  TEnd "g";
  TChar "
";
  TStart "g" [];
  TChar "
";
  TEnd "g";
  TChar "
";
  TEnd "svg"]%string.

(** testdata/landscapeIcons/sea.svg *)
Definition t_sea : list token := [
  TOther;
  TOther;
  TStart "svg" [mkAttr "version" "1.1"; mkAttr "id" "Capa_1"; mkAttr "xmlns" "http://www.w3.org/2000/svg"; mkAttr "xlink" "http://www.w3.org/1999/xlink"; mkAttr "x" "0px"; mkAttr "y" "0px"; mkAttr "viewBox" "0 0 512 512"; mkAttr "style" "enable-background:new 0 0 512 512;"; mkAttr "space" "preserve"];
  TChar "
";
  TStart "g" [];
  TChar "
	";
  TStart "g" [];
  TChar "
		";
  TStart "circle" [mkAttr "style" "fill:#B26483;"; mkAttr "cx" "256"; mkAttr "cy" "256"; mkAttr "r" "256"];
  TEnd "circle";
  TChar "
	";
  TEnd "g";
  TChar "
	";
  TStart "g" [];
  TChar "
		";
  TStart "circle" [mkAttr "style" "fill:#CE6B8A;"; mkAttr "cx" "256"; mkAttr "cy" "272"; mkAttr "r" "173.865"];
  TEnd "circle";
  TChar "
	";
  TEnd "g";
  TChar "
	";
  TStart "g" [];
  TChar "
		";
  TStart "circle" [mkAttr "style" "fill:#FF7998;"; mkAttr "cx" "256"; mkAttr "cy" "272"; mkAttr "r" "104"];
  TEnd "circle";
  TChar "
	";
  TEnd "g";
  TChar "
	";
  TStart "g" [mkAttr "style" "opacity:0.55;"];
  TChar "
		";
  TStart "path" [mkAttr "style" "fill:#9B5A6F;"; mkAttr "d" "M30.829,134.11l3.838,16.552l114.667,40.592l7.168-12.436l-2.093-8.743    c1.915-5.417,2.957-11.247,2.957-17.32c0-19.42-10.674-36.323-26.458-45.237c0.285-2.203,0.482-4.433,0.482-6.714    c0-21.412-13.025-39.666-31.523-47.617C71.592,74.987,47.965,102.521,30.829,134.11z"];
  TEnd "path";
  TChar "
	";
  TEnd "g";
  TChar "
	";
  TStart "g" [];
  TChar "
		";
  TStart "path" [mkAttr "style" "fill:#FF4F70;"; mkAttr "d" "M0.548,272C8.814,405.924,119.994,512,256,512s247.186-106.076,255.452-240H0.548z"];
  TEnd "path";
  TChar "
	";
  TEnd "g";
  TChar "
	";
  TStart "g" [];
  TChar "
		";
  TStart "path" [mkAttr "style" "fill:#FFFFFF;"; mkAttr "d" "M208,272c0-26.51,21.49-48,48-48s48,21.49,48,48"];
  TEnd "path";
  TChar "
	";
  TEnd "g";
  TChar "
	";
  TStart "g" [];
  TChar "
		";
  TStart "path" [mkAttr "style" "fill:#9B5A6F;"; mkAttr "d" "M157.366,178.731c-0.296,0-0.569,0.08-0.864,0.087c-3.979-19.802-21.455-34.721-42.429-34.721    c-0.998,0-1.931,0.227-2.912,0.293c-7.055-20.318-26.318-34.927-49.039-34.927c-6.532,0-12.722,1.328-18.481,3.529    C17.484,151.758,1.738,198.089,0.202,248h157.164C176.494,248,192,232.493,192,213.366    C192,194.238,176.494,178.731,157.366,178.731z"];
  TEnd "path";
  TChar "
	";
  TEnd "g";
  TChar "
	";
  TStart "g" [];
  TChar "
		";
  TStart "path" [mkAttr "style" "fill:#9B5A6F;"; mkAttr "d" "M469.868,115.346c-20.114,2.186-36.777,15.764-43.258,34.253c-0.984-0.056-1.959-0.15-2.958-0.15    c-22.666,0-41.883,14.574-48.921,34.843c-0.974-0.082-1.91-0.292-2.905-0.292c-19.082,0-34.551,15.469-34.551,34.551    c-9.541,0-17.275,7.734-17.275,17.275c0,9.541,7.734,17.275,17.275,17.275h174.651    C511.36,202.243,495.975,154.962,469.868,115.346z"];
  TEnd "path";
  TChar "
	";
  TEnd "g";
  TChar "
	";
  TStart "g" [mkAttr "style" "opacity:0.55;"];
  TChar "
		";
  TStart "path" [mkAttr "style" "fill:#9B5A6F;"; mkAttr "d" "M199.215,6.399c-3.228,6.234-5.08,13.297-5.08,20.802c0,25.036,20.296,45.333,45.333,45.333    c0.426,0,0.821-0.113,1.243-0.125c4,15.679,18.097,27.325,35.023,27.325C275.734,119.763,291.971,136,312,136    c13.847,0,25.736-7.85,31.846-19.258c8.917,6.39,19.813,10.191,31.62,10.191c30.044,0,54.399-24.355,54.399-54.399    c0-1.624-0.268-3.175-0.407-4.763C383.844,25.715,322.935,0,256,0C236.475,0,217.488,2.259,199.215,6.399z"];
  TEnd "path";
  TChar "
	";
  TEnd "g";
  TChar "
	";
  TStart "g" [mkAttr "style" "opacity:0.38;"];
  TChar "
		";
  TStart "path" [mkAttr "style" "fill:#FFBC94;"; mkAttr "d" "M256,406.667c74.375,0,134.667-60.292,134.667-134.667H121.333    C121.333,346.374,181.625,406.667,256,406.667z"];
  TEnd "path";
  TChar "
	";
  TEnd "g";
  TChar "
	";
  TStart "g" [mkAttr "style" "opacity:0.38;"];
  TChar "
		";
  TStart "path" [mkAttr "style" "fill:#FFE6B4;"; mkAttr "d" "M256,338.214c36.569,0,66.214-29.645,66.214-66.214H189.786    C189.786,308.569,219.431,338.214,256,338.214z"];
  TEnd "path";
  TChar "
	";
  TEnd "g";
  TChar "
	";
  TStart "g" [];
  TChar "
		";
  TStart "g" [];
  TChar "
			";
  TStart "polygon" [mkAttr "style" "fill:#674447;"; mkAttr "points" "181.682,365.163 106.513,365.163 88.231,341.647 199.963,341.647    "];
  TEnd "polygon";
  TChar "
		";
  TEnd "g";
  TChar "
		";
  TStart "g" [];
  TChar "
			";
  TStart "path" [mkAttr "style" "fill:#674447;"; mkAttr "d" "M151.826,266.094c-2.328,0-9.311,0-9.311,0v65.177h50.652     C193.166,331.271,180.131,266.094,151.826,266.094z"];
  TEnd "path";
  TChar "
		";
  TEnd "g";
  TChar "
		";
  TStart "g" [];
  TChar "
			";
  TStart "path" [mkAttr "style" "fill:#674447;"; mkAttr "d" "M144.03,277.356c1.926,0,7.702,0,7.702,0v53.915h-41.9     C109.833,331.271,120.616,277.356,144.03,277.356z"];
  TEnd "path";
  TChar "
		";
  TEnd "g";
  TChar "
		";
  TStart "g" [];
  TChar "
			";
  TStart "rect" [mkAttr "x" "141.863"; mkAttr "y" "245.051"; mkAttr "style" "fill:#674447;"; mkAttr "width" "4.469"; mkAttr "height" "96.596"];
  TEnd "rect";
  TChar "
		";
  TEnd "g";
  TChar "
	";
  TEnd "g";
  TChar "
	";
  TStart "g" [];
  TChar "
		";
  TStart "g" [];
  TChar "
			";
  TStart "path" [mkAttr "style" "fill:#9B5A6F;"; mkAttr "d" "M341.248,299.859h-84.474l-12.314-17.384h105.48v8.692     C349.94,295.967,346.049,299.859,341.248,299.859z"];
  TEnd "path";
  TChar "
		";
  TEnd "g";
  TChar "
		";
  TStart "g" [];
  TChar "
			";
  TStart "polygon" [mkAttr "style" "fill:#9B5A6F;"; mkAttr "points" "253.514,285.01 271.26,267.264 338.623,267.264 345.141,282.475 321.601,298.048    "];
  TEnd "polygon";
  TChar "
		";
  TEnd "g";
  TChar "
		";
  TStart "g" [];
  TChar "
			";
  TStart "rect" [mkAttr "x" "292.628"; mkAttr "y" "262.737"; mkAttr "style" "fill:#9B5A6F;"; mkAttr "width" "14.486"; mkAttr "height" "6.7"];
  TEnd "rect";
  TChar "
		";
  TEnd "g";
  TChar "
		";
  TStart "g" [];
  TChar "
			";
  TStart "rect" [mkAttr "x" "280.677"; mkAttr "y" "258.362"; mkAttr "style" "fill:#9B5A6F;"; mkAttr "width" "2.406"; mkAttr "height" "11.075"];
  TEnd "rect";
  TChar "
		";
  TEnd "g";
  TChar "
	";
  TEnd "g";
  TChar "
	";
  TStart "g" [];
  TChar "
		";
  TStart "path" [mkAttr "style" "fill:#674447;"; mkAttr "d" "M294,356.342v13.359h10v47.777h8.127v-9.761l26.51-16.025l26.509,16.025v9.762h8.127v-8.821    l28.065-16.965l24.954,15.085v10.702h8.127v-9.118l27.574-16.669l7.97,4.818c1.099-1.67,2.134-3.385,3.194-5.082l-5.363-3.242    l11.358-6.866c1.913-3.401,3.748-6.848,5.508-10.342l-22.667,13.702l-24.776-14.978h48.088l0.002-0.004    c2.179-4.388,4.265-8.829,6.195-13.355H294z M312.127,400.705v-25.038l20.709,12.519L312.127,400.705z M313.86,369.702h49.553    l-24.776,14.978L313.86,369.702z M365.146,400.705l-20.709-12.519l20.709-12.519V400.705z M373.273,401.645v-26.919l22.265,13.459    L373.273,401.645z M376.562,369.702h49.553l-24.776,14.978L376.562,369.702z M426.292,399.764l-19.154-11.579l19.154-11.579    V399.764z M456.193,388.186l-21.774,13.163v-26.325L456.193,388.186z"];
  TEnd "path";
  TChar "
	";
  TEnd "g";
  TChar "
";
  TEnd "g";
  TChar "
";
  TStart "g" [];
  TChar "
";
  TEnd "g";
  TChar "
";
  TStart "g" [];
  TChar "
";
  TEnd "g";
  TChar "
";
  TStart "g" [];
  TChar "
";
  TEnd "g";
  TChar "
";
  TStart "g" [];
  TChar "
";
  TEnd "g";
  TChar "
";
  TStart "g" [];
  TChar "
";
  TEnd "g";
  TChar "
";
  TStart "g" [];
  TChar "
";
  TEnd "g";
  TChar "
";
  TStart "g" [];
  TChar "
";
  TEnd "g";
  TChar "
";
  TStart "g" [];
  TChar "
";
  TEnd "g";
  TChar "
";
  TStart "g" [];
  TChar "
";
  TEnd "g";
  TChar "
";
  TStart "g" [];
  TChar "
";
  TEnd "g";
  TChar "
";
  TStart "g" [];
  TChar "
";
  TEnd "g";
  TChar "
";
  TStart "g" [];
  TChar "
";
  TEnd "g";
  TChar "
";
  TStart "g" [];
  TChar "
";
  TEnd "g";
  TChar "
";
  TStart "g" [];
  TChar "
";
  TEnd "g";
  TChar "
";
  TStart "g" [];
  TChar "
";
  TEnd "g";
  TChar "
";
  TEnd "svg"]%string.

(** testdata/landscapeIcons/trees.svg *)
Definition t_trees : list token := [
  TOther;
  TOther;
  TStart "svg" [mkAttr "version" "1.1"; mkAttr "id" "Capa_1"; mkAttr "xmlns" "http://www.w3.org/2000/svg"; mkAttr "xlink" "http://www.w3.org/1999/xlink"; mkAttr "x" "0px"; mkAttr "y" "0px"; mkAttr "viewBox" "0 0 512 512"; mkAttr "style" "enable-background:new 0 0 512 512;"; mkAttr "space" "preserve"];
  TChar "
";
  TStart "g" [];
  TChar "
	";
  TStart "g" [];
  TChar "
		";
  TStart "circle" [mkAttr "style" "fill:#9AF4EF;"; mkAttr "cx" "256"; mkAttr "cy" "256"; mkAttr "r" "256"];
  TEnd "circle";
  TChar "
	";
  TEnd "g";
  TChar "
	";
  TStart "g" [];
  TChar "
		";
  TStart "path" [mkAttr "style" "fill:#00C8B4;"; mkAttr "d" "M491.532,155.579c-8.513,0.899-15.987,5.164-20.941,11.616c-1.85-0.44-3.754-0.734-5.739-0.734    c-3.865,0-7.478,0.961-10.739,2.539c-4.063-8.146-12.392-13.793-22.113-13.793c-6.671,0-12.699,2.666-17.155,6.951    c-2.42-0.789-4.956-1.324-7.639-1.324c-3.692,0-7.164,0.86-10.313,2.308c-4.526-4.854-10.927-7.935-18.087-7.935    c-4.814,0-9.269,1.431-13.072,3.805c-4.541-5.084-11.075-8.348-18.428-8.348c-13.694,0-24.794,11.101-24.794,24.794    c0,13.693,11.101,24.794,24.794,24.794c4.813,0,9.269-1.431,13.072-3.805c4.541,5.084,11.075,8.348,18.428,8.348    c3.692,0,7.164-0.86,10.313-2.308c4.526,4.854,17.721,26.886,24.882,26.886c6.671,0,5.905-21.617,10.361-25.902    c2.42,0.789,4.956,1.324,7.639,1.324c3.865,0,7.478-0.961,10.739-2.539c4.063,8.146,12.392,13.794,22.113,13.794    c5.263,0,10.123-1.664,14.137-4.46c4.586,2.772,9.904,4.46,15.654,4.46c4.929,0,9.517-1.283,13.634-3.364    C504.882,192.777,499.242,173.637,491.532,155.579z"];
  TEnd "path";
  TChar "
	";
  TEnd "g";
  TChar "
	";
  TStart "g" [];
  TChar "
		";
  TStart "path" [mkAttr "style" "fill:#00C8B4;"; mkAttr "d" "M170.152,150.663c-6.635,0-12.628,2.643-17.078,6.887c-4.45-4.244-10.443-6.887-17.078-6.887    c-5.704,0-10.893,2.003-15.082,5.24c-4.189-3.237-9.378-5.24-15.082-5.24c-7.825,0-14.718,3.697-19.262,9.358    c-2.188-0.631-4.453-1.077-6.843-1.077c-3.833,0-7.419,0.943-10.659,2.496c-4.635-4.24-10.75-6.891-17.527-6.891    c-7.208,0-13.729,2.928-18.447,7.658c-3.99-2.019-8.435-3.263-13.212-3.263c-0.281,0-0.541,0.075-0.819,0.083    c-7.017,17.126-12.212,35.179-15.389,53.928c4.652,3.076,10.213,4.89,16.208,4.89c9.92,0,27.125,7.517,32.46,0    c2.44,0.756,4.249-4.345,6.938-4.345c4.718,0,1.342-8.185,5.159-10.377c4.223,3.336,9.488,5.41,15.288,5.41    c7.825,0,14.718-3.696,19.262-9.358c2.188,0.631,4.452,1.077,6.843,1.077c5.704,0,10.893-2.003,15.082-5.24    c4.189,3.237,9.378,5.24,15.082,5.24c6.635,0,12.627-2.643,17.077-6.887c4.45,4.244,10.443,6.887,17.078,6.887    c13.694,0,24.794-11.101,24.794-24.794C194.946,161.763,183.846,150.663,170.152,150.663z"];
  TEnd "path";
  TChar "
	";
  TEnd "g";
  TChar "
	";
  TStart "g" [];
  TChar "
		";
  TStart "path" [mkAttr "style" "fill:#52C883;"; mkAttr "d" "M0.029,257.143C0.648,397.999,114.999,512,256,512s255.352-114.001,255.971-254.857H0.029z"];
  TEnd "path";
  TChar "
	";
  TEnd "g";
  TChar "
	";
  TStart "g" [];
  TChar "
		";
  TStart "path" [mkAttr "style" "fill:#34BE71;"; mkAttr "d" "M37.069,388.687C96.667,384.571,176.618,435.5,248,435.5c141.801,0,160.667-52.846,230.422-52.846    c21.138-37.049,33.349-79.85,33.549-125.512H0.029C0.24,305.292,13.756,350.294,37.069,388.687z"];
  TEnd "path";
  TChar "
	";
  TEnd "g";
  TChar "
	";
  TStart "g" [];
  TChar "
		";
  TStart "path" [mkAttr "style" "fill:#00A07D;"; mkAttr "d" "M28.426,373.221c60.968-2.547,173.453-8.104,257.712,4.383    c71.333,10.571,151.195,0.112,202.046-14.107c15.031-32.376,23.62-68.347,23.787-106.354H0.029    C0.212,298.972,10.46,338.412,28.426,373.221z"];
  TEnd "path";
  TChar "
	";
  TEnd "g";
  TChar "
	";
  TStart "g" [];
  TChar "
		";
  TStart "path" [mkAttr "style" "fill:#00827E;"; mkAttr "d" "M12.364,334.461C51.333,355.42,115.644,361.384,192,353.391    c83.333-8.724,167.366-10.177,228.016-5.45c33.474,2.608,58.983,0.861,75.167-1.227c10.627-27.868,16.649-58,16.788-89.571H0.029    C0.147,284.118,4.504,310.075,12.364,334.461z"];
  TEnd "path";
  TChar "
	";
  TEnd "g";
  TChar "
	";
  TStart "g" [];
  TChar "
		";
  TStart "path" [mkAttr "style" "fill:#4F6E6E;"; mkAttr "d" "M492.365,354.321c3.1-7.444,5.867-15.06,8.264-22.84l-3.408-74.338h-2.717L492.365,354.321z"];
  TEnd "path";
  TChar "
	";
  TEnd "g";
  TChar "
	";
  TStart "g" [];
  TChar "
		";
  TStart "path" [mkAttr "style" "fill:#4F6E6E;"; mkAttr "d" "M24.453,365.156l-4.752-103.645h-2.64l-1.796,81.593C17.988,350.628,21.064,357.979,24.453,365.156    z"];
  TEnd "path";
  TChar "
	";
  TEnd "g";
  TChar "
	";
  TStart "g" [];
  TChar "
		";
  TStart "path" [mkAttr "style" "fill:#00A07D;"; mkAttr "d" "M488.273,188.542c-8.368,0-16.07,10.438-22.313,24.182c-2.398,14.075-3.716,28.518-3.716,43.276    c0,16.324,1.593,32.268,4.514,47.743c6.1,4.283,13.495,6.841,21.515,6.841c6.94,0,13.359-2.013,18.937-5.296    C510.323,289.334,512,272.866,512,256c0-17.284-1.738-34.159-5.003-50.482C501.481,195.511,495.1,188.542,488.273,188.542z"];
  TEnd "path";
  TChar "
	";
  TEnd "g";
  TChar "
	";
  TStart "g" [];
  TChar "
		";
  TStart "path" [mkAttr "style" "fill:#00A07D;"; mkAttr "d" "M4.514,303.743c6.1,4.283,13.495,6.841,21.515,6.841c20.739,0,37.552-16.813,37.552-37.551    c0-20.739-16.813-84.491-37.552-84.491c-8.368,0-16.07,10.438-22.313,24.182C1.318,226.799,0,241.242,0,256    C0,272.324,1.593,288.268,4.514,303.743z"];
  TEnd "path";
  TChar "
	";
  TEnd "g";
  TChar "
	";
  TStart "g" [];
  TChar "
		";
  TStart "polygon" [mkAttr "style" "fill:#00827E;"; mkAttr "points" "246.826,364.283 236.674,364.283 239.11,253.571 241.75,253.571   "];
  TEnd "polygon";
  TChar "
	";
  TEnd "g";
  TChar "
	";
  TStart "g" [];
  TChar "
		";
  TStart "polygon" [mkAttr "style" "fill:#00827E;"; mkAttr "points" "216.576,366.712 206.424,366.712 208.86,256 211.5,256   "];
  TEnd "polygon";
  TChar "
	";
  TEnd "g";
  TChar "
	";
  TStart "g" [];
  TChar "
		";
  TStart "polygon" [mkAttr "style" "fill:#00827E;"; mkAttr "points" "280.334,364.283 271.638,364.283 273.725,269.452 275.986,269.452   "];
  TEnd "polygon";
  TChar "
	";
  TEnd "g";
  TChar "
	";
  TStart "g" [];
  TChar "
		";
  TStart "polygon" [mkAttr "style" "fill:#00827E;"; mkAttr "points" "266.911,358.771 258.215,358.771 260.302,263.94 262.563,263.94   "];
  TEnd "polygon";
  TChar "
	";
  TEnd "g";
  TChar "
	";
  TStart "g" [];
  TChar "
		";
  TStart "polygon" [mkAttr "style" "fill:#00827E;"; mkAttr "points" "323.759,364.283 315.063,364.283 317.15,269.452 319.411,269.452   "];
  TEnd "polygon";
  TChar "
	";
  TEnd "g";
  TChar "
	";
  TStart "g" [];
  TChar "
		";
  TStart "polygon" [mkAttr "style" "fill:#00827E;"; mkAttr "points" "411.501,360.558 402.806,360.558 404.893,265.727 407.153,265.727   "];
  TEnd "polygon";
  TChar "
	";
  TEnd "g";
  TChar "
	";
  TStart "g" [];
  TChar "
		";
  TStart "polygon" [mkAttr "style" "fill:#00827E;"; mkAttr "points" "456.441,358.771 447.745,358.771 449.832,263.94 452.093,263.94   "];
  TEnd "polygon";
  TChar "
	";
  TEnd "g";
  TChar "
	";
  TStart "g" [];
  TChar "
		";
  TStart "polygon" [mkAttr "style" "fill:#00827E;"; mkAttr "points" "476.441,356.342 467.745,356.342 469.832,261.511 472.093,261.511   "];
  TEnd "polygon";
  TChar "
	";
  TEnd "g";
  TChar "
	";
  TStart "g" [];
  TChar "
		";
  TStart "polygon" [mkAttr "style" "fill:#00827E;"; mkAttr "points" "63.63,361.762 54.934,361.762 57.021,266.931 59.282,266.931   "];
  TEnd "polygon";
  TChar "
	";
  TEnd "g";
  TChar "
	";
  TStart "g" [];
  TChar "
		";
  TStart "polygon" [mkAttr "style" "fill:#00827E;"; mkAttr "points" "36.973,360.558 28.277,360.558 30.364,265.727 32.625,265.727   "];
  TEnd "polygon";
  TChar "
	";
  TEnd "g";
  TChar "
	";
  TStart "g" [];
  TChar "
		";
  TStart "polygon" [mkAttr "style" "fill:#00827E;"; mkAttr "points" "195.571,364.283 185.419,364.283 187.855,253.571 190.495,253.571   "];
  TEnd "polygon";
  TChar "
	";
  TEnd "g";
  TChar "
	";
  TStart "g" [];
  TChar "
		";
  TStart "polygon" [mkAttr "style" "fill:#00827E;"; mkAttr "points" "160.879,364.283 150.727,364.283 153.163,253.571 155.803,253.571   "];
  TEnd "polygon";
  TChar "
	";
  TEnd "g";
  TChar "
	";
  TStart "g" [];
  TChar "
		";
  TStart "polygon" [mkAttr "style" "fill:#00827E;"; mkAttr "points" "135.997,364.283 125.845,364.283 128.281,253.571 130.921,253.571   "];
  TEnd "polygon";
  TChar "
	";
  TEnd "g";
  TChar "
	";
  TStart "g" [];
  TChar "
		";
  TStart "polygon" [mkAttr "style" "fill:#00827E;"; mkAttr "points" "100.177,362.689 90.025,362.689 92.462,251.977 95.101,251.977   "];
  TEnd "polygon";
  TChar "
	";
  TEnd "g";
  TChar "
	";
  TStart "g" [];
  TChar "
		";
  TStart "polygon" [mkAttr "style" "fill:#4F6E6E;"; mkAttr "points" "286.138,377.604 275.986,377.604 278.423,266.893 281.062,266.893   "];
  TEnd "polygon";
  TChar "
	";
  TEnd "g";
  TChar "
	";
  TStart "g" [];
  TChar "
		";
  TStart "polygon" [mkAttr "style" "fill:#4F6E6E;"; mkAttr "points" "309.873,375.586 299.721,375.586 302.157,264.875 304.797,264.875   "];
  TEnd "polygon";
  TChar "
	";
  TEnd "g";
  TChar "
	";
  TStart "g" [];
  TChar "
		";
  TStart "polygon" [mkAttr "style" "fill:#4F6E6E;"; mkAttr "points" "347.305,375.586 337.153,375.586 339.59,264.875 342.229,264.875   "];
  TEnd "polygon";
  TChar "
	";
  TEnd "g";
  TChar "
	";
  TStart "g" [];
  TChar "
		";
  TStart "polygon" [mkAttr "style" "fill:#4F6E6E;"; mkAttr "points" "378.805,373.495 368.653,373.495 371.09,262.783 373.729,262.783   "];
  TEnd "polygon";
  TChar "
	";
  TEnd "g";
  TChar "
	";
  TStart "g" [];
  TChar "
		";
  TStart "polygon" [mkAttr "style" "fill:#4F6E6E;"; mkAttr "points" "417.305,369.702 407.153,369.702 409.59,258.99 412.229,258.99   "];
  TEnd "polygon";
  TChar "
	";
  TEnd "g";
  TChar "
	";
  TStart "g" [];
  TChar "
		";
  TStart "polygon" [mkAttr "style" "fill:#4F6E6E;"; mkAttr "points" "462.245,364.238 452.093,364.238 454.529,253.526 457.169,253.526   "];
  TEnd "polygon";
  TChar "
	";
  TEnd "g";
  TChar "
	";
  TStart "g" [];
  TChar "
		";
  TStart "polygon" [mkAttr "style" "fill:#4F6E6E;"; mkAttr "points" "482.245,368.499 472.093,368.499 474.529,257.787 477.169,257.787   "];
  TEnd "polygon";
  TChar "
	";
  TEnd "g";
  TChar "
	";
  TStart "g" [];
  TChar "
		";
  TStart "polygon" [mkAttr "style" "fill:#4F6E6E;"; mkAttr "points" "73.732,373.495 63.58,373.495 66.017,262.783 68.656,262.783   "];
  TEnd "polygon";
  TChar "
	";
  TEnd "g";
  TChar "
	";
  TStart "g" [];
  TChar "
		";
  TStart "polygon" [mkAttr "style" "fill:#4F6E6E;"; mkAttr "points" "42.777,375.586 32.625,375.586 35.062,264.875 37.701,264.875   "];
  TEnd "polygon";
  TChar "
	";
  TEnd "g";
  TChar "
	";
  TStart "g" [];
  TChar "
		";
  TStart "polygon" [mkAttr "style" "fill:#6C5F59;"; mkAttr "points" "190.495,397.915 176.618,397.915 179.948,246.582 183.556,246.582   "];
  TEnd "polygon";
  TChar "
	";
  TEnd "g";
  TChar "
	";
  TStart "g" [];
  TChar "
		";
  TStart "polygon" [mkAttr "style" "fill:#6C5F59;"; mkAttr "points" "232.863,397.915 218.986,397.915 222.317,246.582 225.924,246.582   "];
  TEnd "polygon";
  TChar "
	";
  TEnd "g";
  TChar "
	";
  TStart "g" [];
  TChar "
		";
  TStart "polygon" [mkAttr "style" "fill:#6C5F59;"; mkAttr "points" "294.939,396.648 281.062,396.648 284.393,245.315 288.001,245.315   "];
  TEnd "polygon";
  TChar "
	";
  TEnd "g";
  TChar "
	";
  TStart "g" [];
  TChar "
		";
  TStart "polygon" [mkAttr "style" "fill:#6C5F59;"; mkAttr "points" "333.288,396.648 319.411,396.648 322.741,245.315 326.349,245.315   "];
  TEnd "polygon";
  TChar "
	";
  TEnd "g";
  TChar "
	";
  TStart "g" [];
  TChar "
		";
  TStart "polygon" [mkAttr "style" "fill:#6C5F59;"; mkAttr "points" "400.767,397.915 386.89,397.915 390.221,246.582 393.829,246.582   "];
  TEnd "polygon";
  TChar "
	";
  TEnd "g";
  TChar "
	";
  TStart "g" [];
  TChar "
		";
  TStart "polygon" [mkAttr "style" "fill:#6C5F59;"; mkAttr "points" "438.938,393.439 425.062,393.439 428.392,242.105 432,242.105   "];
  TEnd "polygon";
  TChar "
	";
  TEnd "g";
  TChar "
	";
  TStart "g" [];
  TChar "
		";
  TStart "polygon" [mkAttr "style" "fill:#6C5F59;"; mkAttr "points" "130.921,388.81 117.044,388.81 120.374,237.476 123.982,237.476   "];
  TEnd "polygon";
  TChar "
	";
  TEnd "g";
  TChar "
	";
  TStart "g" [];
  TChar "
		";
  TStart "polygon" [mkAttr "style" "fill:#4F6E6E;"; mkAttr "points" "107.116,375.586 96.964,375.586 99.4,264.875 102.04,264.875   "];
  TEnd "polygon";
  TChar "
	";
  TEnd "g";
  TChar "
	";
  TStart "g" [];
  TChar "
		";
  TStart "polygon" [mkAttr "style" "fill:#4F6E6E;"; mkAttr "points" "170.152,376.337 160,376.337 162.436,265.626 165.076,265.626   "];
  TEnd "polygon";
  TChar "
	";
  TEnd "g";
  TChar "
	";
  TStart "g" [];
  TChar "
		";
  TStart "polygon" [mkAttr "style" "fill:#4F6E6E;"; mkAttr "points" "211.5,377.604 201.348,377.604 203.785,266.893 206.424,266.893   "];
  TEnd "polygon";
  TChar "
	";
  TEnd "g";
  TChar "
	";
  TStart "g" [];
  TChar "
		";
  TStart "polygon" [mkAttr "style" "fill:#4F6E6E;"; mkAttr "points" "253.076,377.604 242.924,377.604 245.36,266.893 248,266.893   "];
  TEnd "polygon";
  TChar "
	";
  TEnd "g";
  TChar "
	";
  TStart "g" [];
  TChar "
		";
  TStart "polygon" [mkAttr "style" "fill:#6C5F59;"; mkAttr "points" "59.282,390.013 45.405,390.013 48.735,238.679 52.343,238.679   "];
  TEnd "polygon";
  TChar "
	";
  TEnd "g";
  TChar "
	";
  TStart "g" [];
  TChar "
		";
  TStart "g" [];
  TChar "
			";
  TStart "path" [mkAttr "style" "fill:#34BE71;"; mkAttr "d" "M489.016,295.785c0,27.439-22.243,49.682-49.682,49.682s-49.682-22.243-49.682-49.682     S411.895,184,439.334,184S489.016,268.346,489.016,295.785z"];
  TEnd "path";
  TChar "
		";
  TEnd "g";
  TChar "
		";
  TStart "g" [];
  TChar "
			";
  TStart "polygon" [mkAttr "style" "fill:#805F59;"; mkAttr "points" "436.758,307.333 434.389,407.333 448.975,407.333 444.04,307.333    "];
  TEnd "polygon";
  TChar "
		";
  TEnd "g";
  TChar "
		";
  TStart "g" [];
  TChar "
			";
  TStart "polygon" [mkAttr "style" "fill:#805F59;"; mkAttr "points" "439.334,322.409 462.118,303.877 464.852,308.882 439.334,331.667    "];
  TEnd "polygon";
  TChar "
		";
  TEnd "g";
  TChar "
		";
  TStart "g" [];
  TChar "
			";
  TStart "path" [mkAttr "style" "fill:#52C883;"; mkAttr "d" "M439.333,184c-6.852,0-13.379,5.261-19.317,13.58c1.822-0.743,3.671-1.171,5.547-1.171     c27.438,0,49.682,84.346,49.682,111.785c0,11.295-3.813,21.675-10.162,30.021c14.33-8.716,23.933-24.431,23.933-42.43     C489.016,268.346,466.772,184,439.333,184z"];
  TEnd "path";
  TChar "
		";
  TEnd "g";
  TChar "
	";
  TEnd "g";
  TChar "
	";
  TStart "g" [];
  TChar "
		";
  TStart "g" [];
  TChar "
			";
  TStart "path" [mkAttr "style" "fill:#34BE71;"; mkAttr "d" "M130.921,291.518c0,28.488-23.094,51.583-51.583,51.583s-51.583-23.094-51.583-51.583     S50.85,175.457,79.338,175.457S130.921,263.03,130.921,291.518z"];
  TEnd "path";
  TChar "
		";
  TEnd "g";
  TChar "
		";
  TStart "g" [];
  TChar "
			";
  TStart "polygon" [mkAttr "style" "fill:#805F59;"; mkAttr "points" "76.664,303.508 74.204,407.333 89.349,407.333 84.224,303.508    "];
  TEnd "polygon";
  TChar "
		";
  TEnd "g";
  TChar "
		";
  TStart "g" [];
  TChar "
			";
  TStart "polygon" [mkAttr "style" "fill:#805F59;"; mkAttr "points" "79.338,319.16 102.994,299.92 105.833,305.116 79.338,328.772    "];
  TEnd "polygon";
  TChar "
		";
  TEnd "g";
  TChar "
		";
  TStart "g" [];
  TChar "
			";
  TStart "path" [mkAttr "style" "fill:#52C883;"; mkAttr "d" "M79.338,175.457c-7.114,0-13.891,5.462-20.056,14.1c1.891-0.772,3.811-1.216,5.759-1.216     c28.488,0,51.583,87.573,51.583,116.061c0,11.727-3.959,22.504-10.551,31.169c14.878-9.05,24.848-25.366,24.848-44.053     C130.921,263.03,107.827,175.457,79.338,175.457z"];
  TEnd "path";
  TChar "
		";
  TEnd "g";
  TChar "
	";
  TEnd "g";
  TChar "
	";
  TStart "g" [];
  TChar "
		";
  TStart "path" [mkAttr "style" "fill:#FFFFFF;"; mkAttr "d" "M219.536,97.841c-2.989,0-5.813,0.588-8.52,1.442c-8.575-12.327-22.8-20.431-38.954-20.431    s-30.379,8.104-38.954,20.431c-2.707-0.854-5.531-1.442-8.52-1.442c-15.731,0-28.484,12.753-28.484,28.484H248.02    C248.02,110.594,235.267,97.841,219.536,97.841z"];
  TEnd "path";
  TChar "
	";
  TEnd "g";
  TChar "
	";
  TStart "g" [mkAttr "style" "opacity:0.6;"];
  TChar "
		";
  TStart "path" [mkAttr "style" "fill:#FFFFFF;"; mkAttr "d" "M360.683,109.351c-1.901,0-3.698,0.374-5.421,0.917c-5.456-7.843-14.506-12.999-24.784-12.999    c-10.278,0-19.328,5.156-24.783,12.999c-1.722-0.543-3.519-0.917-5.421-0.917c-10.009,0-18.122,8.114-18.122,18.122h96.653    C378.805,117.465,370.692,109.351,360.683,109.351z"];
  TEnd "path";
  TChar "
	";
  TEnd "g";
  TChar "
	";
  TStart "g" [];
  TChar "
		";
  TStart "g" [];
  TChar "
			";
  TStart "path" [mkAttr "style" "fill:#00A07D;"; mkAttr "d" "M301.218,238.964c-0.766-3.075-1.217-6.276-1.217-9.591c0-21.717,17.461-39.323,39-39.323     c2.262,0,4.465,0.236,6.621,0.609C352.441,186.462,360.426,184,369,184c24.853,0,45,20.314,45,45.372     c0,1.124-0.087,2.227-0.167,3.33C425.101,245.516,432,262.323,432,280.795c0,40.093-32.235,72.596-72,72.596     s-72-32.503-72-72.596C288.001,265.203,292.921,250.794,301.218,238.964z"];
  TEnd "path";
  TChar "
		";
  TEnd "g";
  TChar "
		";
  TStart "g" [];
  TChar "
			";
  TStart "g" [];
  TChar "
				";
  TStart "polygon" [mkAttr "style" "fill:#805F59;"; mkAttr "points" "366.554,407.333 353.951,407.333 356.975,279.66 360.252,279.66     "];
  TEnd "polygon";
  TChar "
			";
  TEnd "g";
  TChar "
			";
  TStart "g" [];
  TChar "
				";
  TStart "polygon" [mkAttr "style" "fill:#805F59;"; mkAttr "points" "358.11,328.922 329.752,305.857 326.349,307.748 358.11,336.106     "];
  TEnd "polygon";
  TChar "
			";
  TEnd "g";
  TChar "
			";
  TStart "g" [];
  TChar "
				";
  TStart "polygon" [mkAttr "style" "fill:#805F59;"; mkAttr "points" "360,300.983 340.758,285.332 338.448,286.615 360,305.857     "];
  TEnd "polygon";
  TChar "
			";
  TEnd "g";
  TChar "
			";
  TStart "g" [];
  TChar "
				";
  TStart "polygon" [mkAttr "style" "fill:#805F59;"; mkAttr "points" "360,316.822 388.358,293.758 391.761,295.649 360,324.006     "];
  TEnd "polygon";
  TChar "
			";
  TEnd "g";
  TChar "
		";
  TEnd "g";
  TChar "
		";
  TStart "g" [];
  TChar "
			";
  TStart "path" [mkAttr "style" "fill:#36B294;"; mkAttr "d" "M413.833,232.703c0.08-1.104,0.167-2.206,0.167-3.33C414,204.314,393.853,184,369,184     c-8.574,0-16.559,2.461-23.379,6.658c-2.156-0.373-4.359-0.609-6.621-0.609c-11.646,0-21.982,5.252-29.128,13.413     c4.12-1.493,8.498-2.448,13.127-2.448c2.262,0,4.465,0.236,6.621,0.608c6.82-4.196,14.805-6.658,23.379-6.658     c24.853,0,45,20.314,45,45.373c0,1.125-0.086,2.227-0.167,3.33C409.101,256.48,416,273.288,416,291.759     c0,21.468-9.297,40.699-23.988,53.99C415.691,333.86,432,309.277,432,280.794C432,262.323,425.102,245.516,413.833,232.703z"];
  TEnd "path";
  TChar "
		";
  TEnd "g";
  TChar "
	";
  TEnd "g";
  TChar "
	";
  TStart "g" [];
  TChar "
		";
  TStart "g" [];
  TChar "
			";
  TStart "path" [mkAttr "style" "fill:#00A07D;"; mkAttr "d" "M213.844,221.952c0.85-3.386,1.351-6.911,1.351-10.56c0-23.912-19.384-43.296-43.296-43.296     c-2.511,0-4.957,0.26-7.35,0.67c-7.571-4.62-16.436-7.331-25.954-7.331c-27.59,0-49.957,22.366-49.957,49.957     c0,1.238,0.096,2.451,0.185,3.667c-12.509,14.108-20.168,32.613-20.168,52.951c0,44.144,35.786,79.931,79.931,79.931     s79.931-35.786,79.931-79.931C228.517,250.843,223.055,234.978,213.844,221.952z"];
  TEnd "path";
  TChar "
		";
  TEnd "g";
  TChar "
		";
  TStart "g" [];
  TChar "
			";
  TStart "g" [];
  TChar "
				";
  TStart "path" [mkAttr "style" "fill:#36B294;"; mkAttr "d" "M213.844,221.952c0.85-3.386,1.351-6.911,1.351-10.56c0-23.912-19.384-43.296-43.296-43.296      c-2.511,0-4.957,0.26-7.35,0.67c-7.571-4.62-16.436-7.331-25.954-7.331c-20.527,0-38.144,12.39-45.829,30.091      c8.899-10.253,22.045-16.769,36.748-16.769c9.246,0,17.856,2.614,25.21,7.069c2.325-0.396,4.701-0.646,7.14-0.646      c23.227,0,42.056,18.692,42.056,41.749c0,3.519-0.487,6.918-1.313,10.183c8.947,12.56,14.253,27.858,14.253,44.412      c0,24.358-11.411,46.041-29.183,60.166c24.358-13.696,40.84-39.747,40.84-69.681      C228.517,250.843,223.055,234.978,213.844,221.952z"];
  TEnd "path";
  TChar "
			";
  TEnd "g";
  TChar "
		";
  TEnd "g";
  TChar "
		";
  TStart "g" [];
  TChar "
			";
  TStart "g" [];
  TChar "
				";
  TStart "polygon" [mkAttr "style" "fill:#805F59;"; mkAttr "points" "155.803,407.333 141.926,407.333 145.256,256 148.864,256     "];
  TEnd "polygon";
  TChar "
			";
  TEnd "g";
  TChar "
			";
  TStart "g" [];
  TChar "
				";
  TStart "polygon" [mkAttr "style" "fill:#805F59;"; mkAttr "points" "146.505,314.339 115.282,288.944 111.536,291.026 146.505,322.248     "];
  TEnd "polygon";
  TChar "
			";
  TEnd "g";
  TChar "
			";
  TStart "g" [];
  TChar "
				";
  TStart "polygon" [mkAttr "style" "fill:#805F59;"; mkAttr "points" "148.587,301.017 179.81,275.622 183.556,277.704 148.587,308.927     "];
  TEnd "polygon";
  TChar "
			";
  TEnd "g";
  TChar "
		";
  TEnd "g";
  TChar "
	";
  TEnd "g";
  TChar "
	";
  TStart "g" [];
  TChar "
		";
  TStart "g" [];
  TChar "
			";
  TStart "path" [mkAttr "style" "fill:#34BE71;"; mkAttr "d" "M334.377,184.683c1.021-4.066,1.623-8.3,1.623-12.683c0-28.719-23.281-52-52-52     c-3.016,0-5.953,0.312-8.828,0.805C266.079,115.255,255.432,112,244,112c-33.137,0-60,26.863-60,60     c0,1.487,0.116,2.944,0.222,4.404C169.198,193.348,160,215.574,160,240c0,53.019,42.98,96,96,96s96-42.981,96-96     C352,219.381,345.44,200.328,334.377,184.683z"];
  TEnd "path";
  TChar "
		";
  TEnd "g";
  TChar "
		";
  TStart "g" [];
  TChar "
			";
  TStart "g" [];
  TChar "
				";
  TStart "g" [];
  TChar "
					";
  TStart "path" [mkAttr "style" "fill:#52C883;"; mkAttr "d" "M334.377,184.683c1.021-4.066,1.623-8.3,1.623-12.683c0-28.719-23.281-52-52-52       c-3.016,0-5.953,0.312-8.828,0.805C266.079,115.255,255.432,112,244,112c-24.654,0-45.813,14.881-55.042,36.141       C199.646,135.827,215.436,128,233.094,128c11.104,0,21.446,3.139,30.279,8.49c2.793-0.475,5.646-0.776,8.575-0.776       c27.896,0,50.511,22.45,50.511,50.143c0,4.227-0.584,8.309-1.577,12.23C331.628,213.173,338,231.546,338,251.428       c0,29.255-13.706,55.297-35.05,72.262C332.205,307.241,352,275.952,352,240C352,219.381,345.44,200.328,334.377,184.683z"];
  TEnd "path";
  TChar "
				";
  TEnd "g";
  TChar "
			";
  TEnd "g";
  TChar "
			";
  TStart "g" [];
  TChar "
				";
  TStart "g" [];
  TChar "
					";
  TStart "path" [mkAttr "style" "fill:#52C883;"; mkAttr "d" "M175.028,190.104c-0.032-0.439-0.037-0.885-0.067-1.325c-1.025,1.613-1.969,3.277-2.899,4.952       C173.043,192.516,173.988,191.269,175.028,190.104z"];
  TEnd "path";
  TChar "
				";
  TEnd "g";
  TChar "
			";
  TEnd "g";
  TChar "
		";
  TEnd "g";
  TChar "
		";
  TStart "g" [];
  TChar "
			";
  TStart "g" [];
  TChar "
				";
  TStart "polygon" [mkAttr "style" "fill:#805F59;"; mkAttr "points" "264.667,407.333 248,407.333 252,238.5 256.333,238.5     "];
  TEnd "polygon";
  TChar "
			";
  TEnd "g";
  TChar "
			";
  TStart "g" [];
  TChar "
				";
  TStart "polygon" [mkAttr "style" "fill:#805F59;"; mkAttr "points" "253.5,303.643 216,273.143 211.5,275.643 253.5,313.143     "];
  TEnd "polygon";
  TChar "
			";
  TEnd "g";
  TChar "
			";
  TStart "g" [];
  TChar "
				";
  TStart "polygon" [mkAttr "style" "fill:#805F59;"; mkAttr "points" "256,266.696 230.554,246 227.5,247.696 256,273.143     "];
  TEnd "polygon";
  TChar "
			";
  TEnd "g";
  TChar "
			";
  TStart "g" [];
  TChar "
				";
  TStart "polygon" [mkAttr "style" "fill:#805F59;"; mkAttr "points" "256,287.643 293.5,257.143 298,259.643 256,297.143     "];
  TEnd "polygon";
  TChar "
			";
  TEnd "g";
  TChar "
		";
  TEnd "g";
  TChar "
	";
  TEnd "g";
  TChar "
	";
  TStart "g" [mkAttr "style" "opacity:0.6;"];
  TChar "
		";
  TStart "path" [mkAttr "style" "fill:#FFFFFF;"; mkAttr "d" "M206.559,66.155c0-11.096,8.995-20.091,20.091-20.091c1.675,0,3.276,0.265,4.831,0.651    c5.242-5.661,12.675-9.261,21-9.261c15.851,0,28.701,12.85,28.701,28.701H206.559z"];
  TEnd "path";
  TChar "
	";
  TEnd "g";
  TChar "
	";
  TStart "g" [];
  TChar "
		";
  TStart "path" [mkAttr "style" "fill:#FFFFFF;"; mkAttr "d" "M309.871,70.155c0-6.724-5.443-12.175-12.157-12.175c-1.013,0-1.982,0.161-2.923,0.394    c-3.172-3.431-7.67-5.613-12.708-5.613c-9.592,0-17.368,7.787-17.368,17.393H309.871z"];
  TEnd "path";
  TChar "
	";
  TEnd "g";
  TChar "
	";
  TStart "g" [];
  TChar "
		";
  TStart "path" [mkAttr "style" "fill:#FFFFFF;"; mkAttr "d" "M360,97.269c0-7.801,6.315-14.125,14.104-14.125c1.176,0,2.3,0.186,3.391,0.458    c3.68-3.98,8.898-6.511,14.742-6.511c11.128,0,20.148,9.034,20.148,20.178H360z"];
  TEnd "path";
  TChar "
	";
  TEnd "g";
  TChar "
";
  TEnd "g";
  TChar "
";
  TStart "g" [];
  TChar "
";
  TEnd "g";
  TChar "
";
  TStart "g" [];
  TChar "
";
  TEnd "g";
  TChar "
";
  TStart "g" [];
  TChar "
";
  TEnd "g";
  TChar "
";
  TStart "g" [];
  TChar "
";
  TEnd "g";
  TChar "
";
  TStart "g" [];
  TChar "
";
  TEnd "g";
  TChar "
";
  TStart "g" [];
  TChar "
";
  TEnd "g";
  TChar "
";
  TStart "g" [];
  TChar "
";
  TEnd "g";
  TChar "
";
  TStart "g" [];
  TChar "
";
  TEnd "g";
  TChar "
";
  TStart "g" [];
  TChar "
";
  TEnd "g";
  TChar "
";
  TStart "g" [];
  TChar "
";
  TEnd "g";
  TChar "
";
  TStart "g" [];
  TChar "
";
  TEnd "g";
  TChar "
";
  TStart "g" [];
  TChar "
";
  TEnd "g";
  TChar "
";
  TStart "g" [];
  TChar "
";
  TEnd "g";
  TChar "
";
  TStart "g" [];
  TChar "
";
  TEnd "g";
  TChar "
";
  TStart "g" [];
  TChar "
";
  TEnd "g";
  TChar "
";
  TEnd "svg"]%string.

(** testdata/landscapeIcons/village.svg *)
Definition t_village : list token := [
  TOther;
  TOther;
  TStart "svg" [mkAttr "version" "1.1"; mkAttr "id" "Capa_1"; mkAttr "xmlns" "http://www.w3.org/2000/svg"; mkAttr "xlink" "http://www.w3.org/1999/xlink"; mkAttr "x" "0px"; mkAttr "y" "0px"; mkAttr "viewBox" "0 0 512 512"; mkAttr "style" "enable-background:new 0 0 512 512;"; mkAttr "space" "preserve"];
  TChar "
";
  TStart "g" [];
  TChar "
	";
  TStart "g" [];
  TChar "
		";
  TStart "path" [mkAttr "style" "fill:#FFF9BB;"; mkAttr "d" "M511.959,256c2.506,141.385-110.059,256-251.421,256S2.547,397.385,0.041,256S110.1,0,251.462,0    S509.453,114.615,511.959,256z"];
  TEnd "path";
  TChar "
	";
  TEnd "g";
  TChar "
	";
  TStart "g" [];
  TChar "
		";
  TStart "path" [mkAttr "style" "fill:#FFEB97;"; mkAttr "d" "M478.048,248h-18.955v-27.75h-39.603H312.866l-22.467-22.125L256,232H118.405v-24H62.173v13.789    H45.75l-14.617-14.395L3.459,234.646l97.683,26.02l206.393,26.211l203.798-8.681c0.499-7.322,0.759-14.712,0.626-22.197    c-0.121-6.837-0.589-13.59-1.234-20.292h-32.677V248z"];
  TEnd "path";
  TChar "
	";
  TEnd "g";
  TChar "
	";
  TStart "g" [];
  TChar "
		";
  TStart "path" [mkAttr "style" "fill:#FAD2A3;"; mkAttr "d" "M20.42,352h89.354v-88H0.385C1.891,295.045,8.878,324.689,20.42,352z"];
  TEnd "path";
  TChar "
	";
  TEnd "g";
  TChar "
	";
  TStart "g" [mkAttr "style" "opacity:0.25;"];
  TChar "
		";
  TStart "path" [mkAttr "style" "fill:#FF8562;"; mkAttr "d" "M1.084,273.871h92.442v-9.75H0.394C0.554,267.389,0.804,270.634,1.084,273.871z"];
  TEnd "path";
  TChar "
	";
  TEnd "g";
  TChar "
	";
  TStart "g" [];
  TChar "
		";
  TStart "rect" [mkAttr "x" "109.773"; mkAttr "y" "184"; mkAttr "style" "fill:#FFF4DB;"; mkAttr "width" "148.92"; mkAttr "height" "168"];
  TEnd "rect";
  TChar "
	";
  TEnd "g";
  TChar "
	";
  TStart "g" [];
  TChar "
		";
  TStart "rect" [mkAttr "x" "109.773"; mkAttr "y" "184"; mkAttr "style" "fill:#F26E64;"; mkAttr "width" "148.92"; mkAttr "height" "32"];
  TEnd "rect";
  TChar "
	";
  TEnd "g";
  TChar "
	";
  TStart "g" [];
  TChar "
		";
  TStart "path" [mkAttr "style" "fill:#FFF4DB;"; mkAttr "d" "M510.396,288.627h-79.568V352h64.155C502.725,332.005,507.971,310.761,510.396,288.627z"];
  TEnd "path";
  TChar "
	";
  TEnd "g";
  TChar "
	";
  TStart "g" [];
  TChar "
		";
  TStart "rect" [mkAttr "x" "301.865"; mkAttr "y" "224"; mkAttr "style" "fill:#FAD2A3;"; mkAttr "width" "128.964"; mkAttr "height" "128"];
  TEnd "rect";
  TChar "
	";
  TEnd "g";
  TChar "
	";
  TStart "g" [mkAttr "style" "opacity:0.25;"];
  TChar "
		";
  TStart "rect" [mkAttr "x" "301.865"; mkAttr "y" "224"; mkAttr "style" "fill:#FF8562;"; mkAttr "width" "128.964"; mkAttr "height" "9.75"];
  TEnd "rect";
  TChar "
	";
  TEnd "g";
  TChar "
	";
  TStart "g" [];
  TChar "
		";
  TStart "rect" [mkAttr "x" "199.134"; mkAttr "y" "264"; mkAttr "style" "fill:#FFFCEC;"; mkAttr "width" "113.732"; mkAttr "height" "88"];
  TEnd "rect";
  TChar "
	";
  TEnd "g";
  TChar "
	";
  TStart "g" [];
  TChar "
		";
  TStart "path" [mkAttr "style" "fill:#E8A271;"; mkAttr "d" "M52.754,408c47.738,63.078,123.336,104,207.783,104c84.448,0,158.595-40.922,204.096-104H52.754z"];
  TEnd "path";
  TChar "
	";
  TEnd "g";
  TChar "
	";
  TStart "g" [];
  TChar "
		";
  TStart "path" [mkAttr "style" "fill:#D8C34A;"; mkAttr "d" "M484.23,376H32.024c6.145,11.184,13.071,21.88,20.73,32h411.88    C471.934,397.88,478.482,387.184,484.23,376z"];
  TEnd "path";
  TChar "
	";
  TEnd "g";
  TChar "
	";
  TStart "g" [];
  TChar "
		";
  TStart "path" [mkAttr "style" "fill:#E5AF7C;"; mkAttr "d" "M21.428,354.449C24.631,361.816,28.178,369,32.024,376H484.23c3.992-7.768,7.572-15.782,10.754-24    H21.428V354.449z"];
  TEnd "path";
  TChar "
	";
  TEnd "g";
  TChar "
	";
  TStart "g" [];
  TChar "
		";
  TStart "path" [mkAttr "style" "fill:#D0D75B;"; mkAttr "d" "M21.428,354.449c1.254,2.886,2.605,5.721,3.962,8.551h465.008c1.602-3.627,3.148-7.286,4.585-11    H21.428V354.449z"];
  TEnd "path";
  TChar "
	";
  TEnd "g";
  TChar "
	";
  TStart "g" [];
  TChar "
		";
  TStart "path" [mkAttr "style" "fill:#FFF1A9;"; mkAttr "d" "M223.505,69.796c0-11.474,9.445-20.776,21.097-20.776c1.759,0,3.44,0.274,5.073,0.673    c5.505-5.854,13.31-9.577,22.052-9.577c16.645,0,30.138,13.288,30.138,29.679H223.505z"];
  TEnd "path";
  TChar "
	";
  TEnd "g";
  TChar "
	";
  TStart "g" [];
  TChar "
		";
  TStart "path" [mkAttr "style" "fill:#FFF1A9;"; mkAttr "d" "M259.469,79c0-9.295,7.652-16.831,17.091-16.831c1.425,0,2.787,0.222,4.11,0.545    c4.46-4.743,10.783-7.758,17.864-7.758c13.484,0,24.416,10.765,24.416,24.044H259.469z"];
  TEnd "path";
  TChar "
	";
  TEnd "g";
  TChar "
	";
  TStart "g" [];
  TChar "
		";
  TStart "path" [mkAttr "style" "fill:#FFF1A9;"; mkAttr "d" "M415.469,177.837c0-7.026,5.784-12.721,12.918-12.721c1.077,0,2.106,0.168,3.106,0.412    c3.371-3.585,8.15-5.864,13.503-5.864c10.192,0,18.454,8.137,18.454,18.173H415.469z"];
  TEnd "path";
  TChar "
	";
  TEnd "g";
  TChar "
	";
  TStart "g" [];
  TChar "
		";
  TStart "path" [mkAttr "style" "fill:#FFF1A9;"; mkAttr "d" "M163.67,159c0-6.867,5.653-12.433,12.626-12.433c1.052,0,2.059,0.164,3.036,0.403    c3.294-3.504,7.966-5.731,13.197-5.731c9.961,0,18.036,7.952,18.036,17.762H163.67z"];
  TEnd "path";
  TChar "
	";
  TEnd "g";
  TChar "
	";
  TStart "g" [];
  TChar "
		";
  TStart "path" [mkAttr "style" "fill:#FFEB97;"; mkAttr "d" "M123.01,122.077c0-16.653,13.709-30.154,30.62-30.154c2.552,0,4.993,0.398,7.363,0.977    c7.99-8.497,19.319-13.9,32.006-13.9c24.158,0,43.743,19.286,43.743,43.077H123.01z"];
  TEnd "path";
  TChar "
	";
  TEnd "g";
  TChar "
	";
  TStart "g" [];
  TChar "
		";
  TStart "path" [mkAttr "style" "fill:#FFEB97;"; mkAttr "d" "M372.44,121.017c-2.557,0-4.974,0.496-7.29,1.215c-7.337-10.386-19.508-17.215-33.329-17.215    s-25.992,6.829-33.329,17.215c-2.316-0.719-4.733-1.215-7.29-1.215c-13.46,0-24.371,10.745-24.371,24h129.979    C396.811,131.762,385.9,121.017,372.44,121.017z"];
  TEnd "path";
  TChar "
	";
  TEnd "g";
  TChar "
	";
  TStart "g" [];
  TChar "
		";
  TStart "path" [mkAttr "style" "fill:#FFEB97;"; mkAttr "d" "M403.623,115.426c-1.665,0-3.238,0.323-4.746,0.791c-4.777-6.762-12.7-11.208-21.698-11.208    c-8.998,0-16.922,4.446-21.698,11.208c-1.508-0.468-3.081-0.791-4.746-0.791c-8.763,0-15.867,6.996-15.867,15.625h84.622    C419.489,122.422,412.386,115.426,403.623,115.426z"];
  TEnd "path";
  TChar "
	";
  TEnd "g";
  TChar "
	";
  TStart "g" [];
  TChar "
		";
  TStart "path" [mkAttr "style" "fill:#FFEB97;"; mkAttr "d" "M140.823,116.486c-1.665,0-3.238,0.323-4.746,0.791c-4.777-6.762-12.7-11.208-21.698-11.208    s-16.922,4.446-21.698,11.208c-1.508-0.468-3.081-0.791-4.746-0.791c-8.763,0-15.867,6.996-15.867,15.625h84.622    C156.689,123.482,149.585,116.486,140.823,116.486z"];
  TEnd "path";
  TChar "
	";
  TEnd "g";
  TChar "
	";
  TStart "g" [];
  TChar "
		";
  TStart "polygon" [mkAttr "style" "fill:#F26E64;"; mkAttr "points" "403.957,192 328.737,192 298.649,224 434.044,224   "];
  TEnd "polygon";
  TChar "
	";
  TEnd "g";
  TChar "
	";
  TStart "g" [];
  TChar "
		";
  TStart "path" [mkAttr "style" "fill:#D29672;"; mkAttr "d" "M62.419,420h392.975c3.194-3.907,6.283-7.901,9.24-12H52.754    C55.856,412.099,59.087,416.093,62.419,420z"];
  TEnd "path";
  TChar "
	";
  TEnd "g";
  TChar "
	";
  TStart "g" [];
  TChar "
		";
  TStart "g" [];
  TChar "
			";
  TStart "rect" [mkAttr "x" "223.505"; mkAttr "y" "288.627"; mkAttr "style" "fill:#63A0B5;"; mkAttr "width" "24.371"; mkAttr "height" "32"];
  TEnd "rect";
  TChar "
		";
  TEnd "g";
  TChar "
		";
  TStart "g" [];
  TChar "
			";
  TStart "path" [mkAttr "style" "fill:#4185A6;"; mkAttr "d" "M249.907,322.629h-28.433v-36h28.433V322.629z M225.536,318.629h20.309v-28h-20.309V318.629z"];
  TEnd "path";
  TChar "
		";
  TEnd "g";
  TChar "
		";
  TStart "g" [];
  TChar "
			";
  TStart "rect" [mkAttr "x" "223.505"; mkAttr "y" "294.629"; mkAttr "style" "fill:#4185A6;"; mkAttr "width" "24.371"; mkAttr "height" "4"];
  TEnd "rect";
  TChar "
		";
  TEnd "g";
  TChar "
	";
  TEnd "g";
  TChar "
	";
  TStart "g" [];
  TChar "
		";
  TStart "g" [];
  TChar "
			";
  TStart "rect" [mkAttr "x" "264.124"; mkAttr "y" "288.627"; mkAttr "style" "fill:#63A0B5;"; mkAttr "width" "24.371"; mkAttr "height" "32"];
  TEnd "rect";
  TChar "
		";
  TEnd "g";
  TChar "
		";
  TStart "g" [];
  TChar "
			";
  TStart "path" [mkAttr "style" "fill:#4185A6;"; mkAttr "d" "M290.526,322.629h-28.433v-36h28.433V322.629z M266.155,318.629h20.309v-28h-20.309V318.629z"];
  TEnd "path";
  TChar "
		";
  TEnd "g";
  TChar "
		";
  TStart "g" [];
  TChar "
			";
  TStart "rect" [mkAttr "x" "264.124"; mkAttr "y" "294.629"; mkAttr "style" "fill:#4185A6;"; mkAttr "width" "24.371"; mkAttr "height" "4"];
  TEnd "rect";
  TChar "
		";
  TEnd "g";
  TChar "
	";
  TEnd "g";
  TChar "
	";
  TStart "g" [];
  TChar "
		";
  TStart "polygon" [mkAttr "style" "fill:#F26E64;"; mkAttr "points" "280.371,220.25 256,220.25 231.629,220.25 191.01,268.25 320.99,268.25   "];
  TEnd "polygon";
  TChar "
	";
  TEnd "g";
  TChar "
	";
  TStart "g" [];
  TChar "
		";
  TStart "rect" [mkAttr "x" "199.134"; mkAttr "y" "342"; mkAttr "style" "fill:#EBD7BD;"; mkAttr "width" "113.732"; mkAttr "height" "10"];
  TEnd "rect";
  TChar "
	";
  TEnd "g";
  TChar "
	";
  TStart "g" [];
  TChar "
		";
  TStart "rect" [mkAttr "x" "109.773"; mkAttr "y" "330.377"; mkAttr "style" "fill:#E8A271;"; mkAttr "width" "89.361"; mkAttr "height" "21.623"];
  TEnd "rect";
  TChar "
	";
  TEnd "g";
  TChar "
	";
  TStart "g" [mkAttr "style" "opacity:0.25;"];
  TChar "
		";
  TStart "rect" [mkAttr "x" "199.134"; mkAttr "y" "268.25"; mkAttr "style" "fill:#FF8562;"; mkAttr "width" "113.732"; mkAttr "height" "9.75"];
  TEnd "rect";
  TChar "
	";
  TEnd "g";
  TChar "
	";
  TStart "g" [mkAttr "style" "opacity:0.25;"];
  TChar "
		";
  TStart "rect" [mkAttr "x" "109.773"; mkAttr "y" "215.375"; mkAttr "style" "fill:#FF8562;"; mkAttr "width" "148.92"; mkAttr "height" "9.75"];
  TEnd "rect";
  TChar "
	";
  TEnd "g";
  TChar "
	";
  TStart "g" [];
  TChar "
		";
  TStart "g" [];
  TChar "
			";
  TStart "rect" [mkAttr "x" "329.452"; mkAttr "y" "288.627"; mkAttr "style" "fill:#63A0B5;"; mkAttr "width" "18.278"; mkAttr "height" "32"];
  TEnd "rect";
  TChar "
		";
  TEnd "g";
  TChar "
		";
  TStart "g" [];
  TChar "
			";
  TStart "path" [mkAttr "style" "fill:#4185A6;"; mkAttr "d" "M349.764,322.629h-22.34v-36h22.34V322.629z M331.485,318.629h14.216v-28h-14.216V318.629z"];
  TEnd "path";
  TChar "
		";
  TEnd "g";
  TChar "
		";
  TStart "g" [];
  TChar "
			";
  TStart "rect" [mkAttr "x" "329.454"; mkAttr "y" "294.629"; mkAttr "style" "fill:#4185A6;"; mkAttr "width" "18.278"; mkAttr "height" "4"];
  TEnd "rect";
  TChar "
		";
  TEnd "g";
  TChar "
	";
  TEnd "g";
  TChar "
	";
  TStart "g" [];
  TChar "
		";
  TStart "g" [];
  TChar "
			";
  TStart "rect" [mkAttr "x" "357.208"; mkAttr "y" "288.627"; mkAttr "style" "fill:#63A0B5;"; mkAttr "width" "18.278"; mkAttr "height" "32"];
  TEnd "rect";
  TChar "
		";
  TEnd "g";
  TChar "
		";
  TStart "g" [];
  TChar "
			";
  TStart "path" [mkAttr "style" "fill:#4185A6;"; mkAttr "d" "M377.514,322.629h-22.34v-36h22.34V322.629z M359.236,318.629h14.216v-28h-14.216V318.629z"];
  TEnd "path";
  TChar "
		";
  TEnd "g";
  TChar "
		";
  TStart "g" [];
  TChar "
			";
  TStart "rect" [mkAttr "x" "357.205"; mkAttr "y" "294.629"; mkAttr "style" "fill:#4185A6;"; mkAttr "width" "18.278"; mkAttr "height" "4"];
  TEnd "rect";
  TChar "
		";
  TEnd "g";
  TChar "
	";
  TEnd "g";
  TChar "
	";
  TStart "g" [];
  TChar "
		";
  TStart "g" [];
  TChar "
			";
  TStart "rect" [mkAttr "x" "384.964"; mkAttr "y" "288.627"; mkAttr "style" "fill:#63A0B5;"; mkAttr "width" "18.278"; mkAttr "height" "32"];
  TEnd "rect";
  TChar "
		";
  TEnd "g";
  TChar "
		";
  TStart "g" [];
  TChar "
			";
  TStart "path" [mkAttr "style" "fill:#4185A6;"; mkAttr "d" "M405.273,322.629h-22.34v-36h22.34V322.629z M386.995,318.629h14.216v-28h-14.216V318.629z"];
  TEnd "path";
  TChar "
		";
  TEnd "g";
  TChar "
		";
  TStart "g" [];
  TChar "
			";
  TStart "rect" [mkAttr "x" "384.964"; mkAttr "y" "294.629"; mkAttr "style" "fill:#4185A6;"; mkAttr "width" "18.278"; mkAttr "height" "4"];
  TEnd "rect";
  TChar "
		";
  TEnd "g";
  TChar "
	";
  TEnd "g";
  TChar "
	";
  TStart "g" [];
  TChar "
		";
  TStart "g" [];
  TChar "
			";
  TStart "rect" [mkAttr "x" "17.994"; mkAttr "y" "288.627"; mkAttr "style" "fill:#63A0B5;"; mkAttr "width" "18.278"; mkAttr "height" "32"];
  TEnd "rect";
  TChar "
		";
  TEnd "g";
  TChar "
		";
  TStart "g" [];
  TChar "
			";
  TStart "path" [mkAttr "style" "fill:#4185A6;"; mkAttr "d" "M38.302,322.629h-22.34v-36h22.34V322.629z M20.024,318.629h14.216v-28H20.024V318.629z"];
  TEnd "path";
  TChar "
		";
  TEnd "g";
  TChar "
		";
  TStart "g" [];
  TChar "
			";
  TStart "rect" [mkAttr "x" "17.993"; mkAttr "y" "294.629"; mkAttr "style" "fill:#4185A6;"; mkAttr "width" "18.278"; mkAttr "height" "4"];
  TEnd "rect";
  TChar "
		";
  TEnd "g";
  TChar "
	";
  TEnd "g";
  TChar "
	";
  TStart "g" [];
  TChar "
		";
  TStart "g" [];
  TChar "
			";
  TStart "rect" [mkAttr "x" "45.75"; mkAttr "y" "288.627"; mkAttr "style" "fill:#63A0B5;"; mkAttr "width" "18.278"; mkAttr "height" "32"];
  TEnd "rect";
  TChar "
		";
  TEnd "g";
  TChar "
		";
  TStart "g" [];
  TChar "
			";
  TStart "path" [mkAttr "style" "fill:#4185A6;"; mkAttr "d" "M66.061,322.629h-22.34v-36h22.34V322.629z M47.783,318.629h14.216v-28H47.783V318.629z"];
  TEnd "path";
  TChar "
		";
  TEnd "g";
  TChar "
		";
  TStart "g" [];
  TChar "
			";
  TStart "rect" [mkAttr "x" "45.752"; mkAttr "y" "294.629"; mkAttr "style" "fill:#4185A6;"; mkAttr "width" "18.278"; mkAttr "height" "4"];
  TEnd "rect";
  TChar "
		";
  TEnd "g";
  TChar "
	";
  TEnd "g";
  TChar "
	";
  TStart "g" [];
  TChar "
		";
  TStart "g" [];
  TChar "
			";
  TStart "rect" [mkAttr "x" "73.506"; mkAttr "y" "288.627"; mkAttr "style" "fill:#63A0B5;"; mkAttr "width" "18.278"; mkAttr "height" "32"];
  TEnd "rect";
  TChar "
		";
  TEnd "g";
  TChar "
		";
  TStart "g" [];
  TChar "
			";
  TStart "path" [mkAttr "style" "fill:#4185A6;"; mkAttr "d" "M93.812,322.629h-22.34v-36h22.34V322.629z M75.533,318.629H89.75v-28H75.533V318.629z"];
  TEnd "path";
  TChar "
		";
  TEnd "g";
  TChar "
		";
  TStart "g" [];
  TChar "
			";
  TStart "rect" [mkAttr "x" "73.502"; mkAttr "y" "294.629"; mkAttr "style" "fill:#4185A6;"; mkAttr "width" "18.278"; mkAttr "height" "4"];
  TEnd "rect";
  TChar "
		";
  TEnd "g";
  TChar "
	";
  TEnd "g";
  TChar "
	";
  TStart "g" [];
  TChar "
		";
  TStart "g" [];
  TChar "
			";
  TStart "g" [];
  TChar "
				";
  TStart "rect" [mkAttr "x" "329.452"; mkAttr "y" "244"; mkAttr "style" "fill:#63A0B5;"; mkAttr "width" "18.278"; mkAttr "height" "24"];
  TEnd "rect";
  TChar "
			";
  TEnd "g";
  TChar "
			";
  TStart "g" [];
  TChar "
				";
  TStart "path" [mkAttr "style" "fill:#4185A6;"; mkAttr "d" "M349.764,270h-22.34v-28h22.34V270z M331.485,266h14.216v-20h-14.216V266z"];
  TEnd "path";
  TChar "
			";
  TEnd "g";
  TChar "
			";
  TStart "g" [];
  TChar "
				";
  TStart "rect" [mkAttr "x" "329.454"; mkAttr "y" "250"; mkAttr "style" "fill:#4185A6;"; mkAttr "width" "18.278"; mkAttr "height" "4"];
  TEnd "rect";
  TChar "
			";
  TEnd "g";
  TChar "
		";
  TEnd "g";
  TChar "
		";
  TStart "g" [];
  TChar "
			";
  TStart "g" [];
  TChar "
				";
  TStart "rect" [mkAttr "x" "357.208"; mkAttr "y" "244"; mkAttr "style" "fill:#63A0B5;"; mkAttr "width" "18.278"; mkAttr "height" "24"];
  TEnd "rect";
  TChar "
			";
  TEnd "g";
  TChar "
			";
  TStart "g" [];
  TChar "
				";
  TStart "path" [mkAttr "style" "fill:#4185A6;"; mkAttr "d" "M377.514,270h-22.34v-28h22.34V270z M359.236,266h14.216v-20h-14.216V266z"];
  TEnd "path";
  TChar "
			";
  TEnd "g";
  TChar "
			";
  TStart "g" [];
  TChar "
				";
  TStart "rect" [mkAttr "x" "357.205"; mkAttr "y" "250"; mkAttr "style" "fill:#4185A6;"; mkAttr "width" "18.278"; mkAttr "height" "4"];
  TEnd "rect";
  TChar "
			";
  TEnd "g";
  TChar "
		";
  TEnd "g";
  TChar "
		";
  TStart "g" [];
  TChar "
			";
  TStart "g" [];
  TChar "
				";
  TStart "rect" [mkAttr "x" "384.964"; mkAttr "y" "244"; mkAttr "style" "fill:#63A0B5;"; mkAttr "width" "18.278"; mkAttr "height" "24"];
  TEnd "rect";
  TChar "
			";
  TEnd "g";
  TChar "
			";
  TStart "g" [];
  TChar "
				";
  TStart "path" [mkAttr "style" "fill:#4185A6;"; mkAttr "d" "M405.273,270h-22.34v-28h22.34V270z M386.995,266h14.216v-20h-14.216V266z"];
  TEnd "path";
  TChar "
			";
  TEnd "g";
  TChar "
			";
  TStart "g" [];
  TChar "
				";
  TStart "rect" [mkAttr "x" "384.964"; mkAttr "y" "250"; mkAttr "style" "fill:#4185A6;"; mkAttr "width" "18.278"; mkAttr "height" "4"];
  TEnd "rect";
  TChar "
			";
  TEnd "g";
  TChar "
		";
  TEnd "g";
  TChar "
	";
  TEnd "g";
  TChar "
	";
  TStart "g" [];
  TChar "
		";
  TStart "rect" [mkAttr "x" "312.866"; mkAttr "y" "336.667"; mkAttr "style" "fill:#B66E64;"; mkAttr "width" "117.963"; mkAttr "height" "15.333"];
  TEnd "rect";
  TChar "
	";
  TEnd "g";
  TChar "
	";
  TStart "g" [];
  TChar "
		";
  TStart "g" [];
  TChar "
			";
  TStart "path" [mkAttr "style" "fill:#69BE5D;"; mkAttr "d" "M372.752,347.203c-1.343,0-2.613,0.26-3.83,0.638c-3.855-5.457-10.249-9.045-17.511-9.045     c-7.262,0-13.656,3.588-17.511,9.045c-1.217-0.378-2.487-0.638-3.83-0.638c-7.072,0-12.804,5.645-12.804,12.609h68.29     C385.556,352.849,379.823,347.203,372.752,347.203z"];
  TEnd "path";
  TChar "
		";
  TEnd "g";
  TChar "
		";
  TStart "g" [];
  TChar "
			";
  TStart "path" [mkAttr "style" "fill:#9DC85C;"; mkAttr "d" "M381.496,347.203c-1.343,0-2.613,0.26-3.83,0.638c-3.855-5.457-10.249-9.045-17.511-9.045     c-1.51,0-2.953,0.242-4.372,0.537c5.409,1.123,10.086,4.185,13.139,8.508c1.217-0.378,2.487-0.638,3.83-0.638     c7.072,0,12.804,5.646,12.804,12.609h8.744C394.3,352.849,388.568,347.203,381.496,347.203z"];
  TEnd "path";
  TChar "
		";
  TEnd "g";
  TChar "
	";
  TEnd "g";
  TChar "
	";
  TStart "g" [];
  TChar "
		";
  TStart "path" [mkAttr "style" "fill:#F26E64;"; mkAttr "d" "M511.866,268.25h-81.038v20.377h79.568C511.133,281.907,511.664,275.124,511.866,268.25z"];
  TEnd "path";
  TChar "
	";
  TEnd "g";
  TChar "
	";
  TStart "g" [];
  TChar "
		";
  TStart "g" [];
  TChar "
			";
  TStart "rect" [mkAttr "x" "441.576"; mkAttr "y" "306.25"; mkAttr "style" "fill:#63A0B5;"; mkAttr "width" "48.488"; mkAttr "height" "23.028"];
  TEnd "rect";
  TChar "
		";
  TEnd "g";
  TChar "
		";
  TStart "g" [];
  TChar "
			";
  TStart "path" [mkAttr "style" "fill:#4185A6;"; mkAttr "d" "M492.095,331.277h-52.55V304.25h52.55V331.277z M443.607,327.277h44.426V308.25h-44.426V327.277z"];
  TEnd "path";
  TChar "
		";
  TEnd "g";
  TChar "
		";
  TStart "g" [];
  TChar "
			";
  TStart "rect" [mkAttr "x" "463.789"; mkAttr "y" "306.25"; mkAttr "style" "fill:#4185A6;"; mkAttr "width" "4.062"; mkAttr "height" "23.027"];
  TEnd "rect";
  TChar "
		";
  TEnd "g";
  TChar "
	";
  TEnd "g";
  TChar "
	";
  TStart "g" [];
  TChar "
		";
  TStart "rect" [mkAttr "x" "430.829"; mkAttr "y" "256"; mkAttr "style" "fill:#F26E64;"; mkAttr "width" "8.632"; mkAttr "height" "32.627"];
  TEnd "rect";
  TChar "
	";
  TEnd "g";
  TChar "
	";
  TStart "g" [];
  TChar "
		";
  TStart "rect" [mkAttr "x" "109.773"; mkAttr "y" "174.789"; mkAttr "style" "fill:#F26E64;"; mkAttr "width" "8.632"; mkAttr "height" "27.838"];
  TEnd "rect";
  TChar "
	";
  TEnd "g";
  TChar "
	";
  TStart "g" [];
  TChar "
		";
  TStart "rect" [mkAttr "x" "101.142"; mkAttr "y" "221.789"; mkAttr "style" "fill:#F26E64;"; mkAttr "width" "8.632"; mkAttr "height" "27.838"];
  TEnd "rect";
  TChar "
	";
  TEnd "g";
  TChar "
	";
  TStart "g" [];
  TChar "
		";
  TStart "rect" [mkAttr "x" "142.98"; mkAttr "y" "168.75"; mkAttr "style" "fill:#B66E64;"; mkAttr "width" "11.424"; mkAttr "height" "27.307"];
  TEnd "rect";
  TChar "
	";
  TEnd "g";
  TChar "
	";
  TStart "g" [];
  TChar "
		";
  TStart "rect" [mkAttr "x" "214.063"; mkAttr "y" "168.75"; mkAttr "style" "fill:#B66E64;"; mkAttr "width" "11.424"; mkAttr "height" "27.307"];
  TEnd "rect";
  TChar "
	";
  TEnd "g";
  TChar "
	";
  TStart "g" [];
  TChar "
		";
  TStart "rect" [mkAttr "x" "250.062"; mkAttr "y" "174.789"; mkAttr "style" "fill:#F26E64;"; mkAttr "width" "8.632"; mkAttr "height" "27.838"];
  TEnd "rect";
  TChar "
	";
  TEnd "g";
  TChar "
	";
  TStart "g" [mkAttr "style" "opacity:0.25;"];
  TChar "
		";
  TStart "path" [mkAttr "style" "fill:#FF8562;"; mkAttr "d" "M510.396,288.627h-79.568v9.75h78.177C509.489,295.134,510.036,291.912,510.396,288.627z"];
  TEnd "path";
  TChar "
	";
  TEnd "g";
  TChar "
	";
  TStart "g" [];
  TChar "
		";
  TStart "g" [];
  TChar "
			";
  TStart "rect" [mkAttr "x" "136.852"; mkAttr "y" "286.877"; mkAttr "style" "fill:#63A0B5;"; mkAttr "width" "18.278"; mkAttr "height" "32"];
  TEnd "rect";
  TChar "
		";
  TEnd "g";
  TChar "
		";
  TStart "g" [];
  TChar "
			";
  TStart "path" [mkAttr "style" "fill:#4185A6;"; mkAttr "d" "M157.159,320.879h-22.34v-36h22.34V320.879z M138.881,316.879h14.216v-28h-14.216V316.879z"];
  TEnd "path";
  TChar "
		";
  TEnd "g";
  TChar "
		";
  TStart "g" [];
  TChar "
			";
  TStart "rect" [mkAttr "x" "136.85"; mkAttr "y" "292.879"; mkAttr "style" "fill:#4185A6;"; mkAttr "width" "18.278"; mkAttr "height" "4"];
  TEnd "rect";
  TChar "
		";
  TEnd "g";
  TChar "
	";
  TEnd "g";
  TChar "
	";
  TStart "g" [];
  TChar "
		";
  TStart "g" [];
  TChar "
			";
  TStart "rect" [mkAttr "x" "169.686"; mkAttr "y" "286.877"; mkAttr "style" "fill:#63A0B5;"; mkAttr "width" "18.278"; mkAttr "height" "32"];
  TEnd "rect";
  TChar "
		";
  TEnd "g";
  TChar "
		";
  TStart "g" [];
  TChar "
			";
  TStart "path" [mkAttr "style" "fill:#4185A6;"; mkAttr "d" "M189.995,320.879h-22.34v-36h22.34V320.879z M171.717,316.879h14.216v-28h-14.216V316.879z"];
  TEnd "path";
  TChar "
		";
  TEnd "g";
  TChar "
		";
  TStart "g" [];
  TChar "
			";
  TStart "rect" [mkAttr "x" "169.686"; mkAttr "y" "292.879"; mkAttr "style" "fill:#4185A6;"; mkAttr "width" "18.278"; mkAttr "height" "4"];
  TEnd "rect";
  TChar "
		";
  TEnd "g";
  TChar "
	";
  TEnd "g";
  TChar "
	";
  TStart "g" [];
  TChar "
		";
  TStart "g" [];
  TChar "
			";
  TStart "rect" [mkAttr "x" "136.852"; mkAttr "y" "242.25"; mkAttr "style" "fill:#63A0B5;"; mkAttr "width" "18.278"; mkAttr "height" "24"];
  TEnd "rect";
  TChar "
		";
  TEnd "g";
  TChar "
		";
  TStart "g" [];
  TChar "
			";
  TStart "path" [mkAttr "style" "fill:#4185A6;"; mkAttr "d" "M157.159,268.25h-22.34v-28h22.34V268.25z M138.881,264.25h14.216v-20h-14.216V264.25z"];
  TEnd "path";
  TChar "
		";
  TEnd "g";
  TChar "
		";
  TStart "g" [];
  TChar "
			";
  TStart "rect" [mkAttr "x" "136.85"; mkAttr "y" "248.25"; mkAttr "style" "fill:#4185A6;"; mkAttr "width" "18.278"; mkAttr "height" "4"];
  TEnd "rect";
  TChar "
		";
  TEnd "g";
  TChar "
	";
  TEnd "g";
  TChar "
	";
  TStart "g" [];
  TChar "
		";
  TStart "g" [];
  TChar "
			";
  TStart "rect" [mkAttr "x" "169.686"; mkAttr "y" "242.25"; mkAttr "style" "fill:#63A0B5;"; mkAttr "width" "18.278"; mkAttr "height" "24"];
  TEnd "rect";
  TChar "
		";
  TEnd "g";
  TChar "
		";
  TStart "g" [];
  TChar "
			";
  TStart "path" [mkAttr "style" "fill:#4185A6;"; mkAttr "d" "M189.995,268.25h-22.34v-28h22.34V268.25z M171.717,264.25h14.216v-20h-14.216V264.25z"];
  TEnd "path";
  TChar "
		";
  TEnd "g";
  TChar "
		";
  TStart "g" [];
  TChar "
			";
  TStart "rect" [mkAttr "x" "169.686"; mkAttr "y" "248.25"; mkAttr "style" "fill:#4185A6;"; mkAttr "width" "18.278"; mkAttr "height" "4"];
  TEnd "rect";
  TChar "
		";
  TEnd "g";
  TChar "
	";
  TEnd "g";
  TChar "
	";
  TStart "g" [];
  TChar "
		";
  TStart "path" [mkAttr "style" "fill:#F26E64;"; mkAttr "d" "M109.773,232H0.772c-0.595,7.905-0.874,15.902-0.731,24c0.048,2.683,0.215,5.337,0.344,8h109.388    V232z"];
  TEnd "path";
  TChar "
	";
  TEnd "g";
  TChar "
	";
  TStart "g" [];
  TChar "
		";
  TStart "path" [mkAttr "style" "fill:#B66E64;"; mkAttr "d" "M20.42,352h89.354v-15.333H14.572C16.382,341.844,18.296,346.974,20.42,352z"];
  TEnd "path";
  TChar "
	";
  TEnd "g";
  TChar "
	";
  TStart "g" [];
  TChar "
		";
  TStart "g" [];
  TChar "
			";
  TStart "path" [mkAttr "style" "fill:#996459;"; mkAttr "d" "M106.779,357.756V316.78c0-2.103-1.731-3.808-3.869-3.808s-3.869,1.705-3.869,3.808v40.975     H106.779z"];
  TEnd "path";
  TChar "
		";
  TEnd "g";
  TChar "
		";
  TStart "g" [];
  TChar "
			";
  TStart "path" [mkAttr "style" "fill:#69BE5D;"; mkAttr "d" "M130.344,304.222c0,20.735-12.283,31.142-27.436,31.142s-27.436-10.408-27.436-31.142     s16.806-101.594,27.436-101.594S130.344,283.487,130.344,304.222z"];
  TEnd "path";
  TChar "
		";
  TEnd "g";
  TChar "
		";
  TStart "g" [];
  TChar "
			";
  TStart "path" [mkAttr "style" "fill:#9DC85C;"; mkAttr "d" "M102.908,202.627c-2.105,0-4.454,3.206-6.865,8.454c8.671,12.933,19.89,76.83,19.89,94.578     c0,17.34-7.83,27.102-18.226,29.246c1.687,0.288,3.419,0.459,5.201,0.459c15.152,0,27.436-10.408,27.436-31.142     C130.344,283.487,113.538,202.627,102.908,202.627z"];
  TEnd "path";
  TChar "
		";
  TEnd "g";
  TChar "
	";
  TEnd "g";
  TChar "
	";
  TStart "g" [];
  TChar "
		";
  TStart "g" [];
  TChar "
			";
  TStart "path" [mkAttr "style" "fill:#996459;"; mkAttr "d" "M140.185,357.756v-31.5c0-1.616-1.331-2.927-2.975-2.927c-1.644,0-2.975,1.311-2.975,2.927v31.5     H140.185z"];
  TEnd "path";
  TChar "
		";
  TEnd "g";
  TChar "
		";
  TStart "g" [];
  TChar "
			";
  TStart "path" [mkAttr "style" "fill:#69BE5D;"; mkAttr "d" "M158.3,316.601c0,15.94-9.443,23.941-21.091,23.941s-21.091-8.001-21.091-23.941     s12.92-78.102,21.091-78.102S158.3,300.661,158.3,316.601z"];
  TEnd "path";
  TChar "
		";
  TEnd "g";
  TChar "
		";
  TStart "g" [];
  TChar "
			";
  TStart "path" [mkAttr "style" "fill:#9DC85C;"; mkAttr "d" "M137.209,238.499c-1.618,0-3.424,2.465-5.278,6.499c6.666,9.942,15.29,59.063,15.29,72.708     c0,13.33-6.019,20.835-14.011,22.483c1.297,0.221,2.629,0.353,3.998,0.353c11.648,0,21.091-8.001,21.091-23.941     S145.38,238.499,137.209,238.499z"];
  TEnd "path";
  TChar "
		";
  TEnd "g";
  TChar "
	";
  TEnd "g";
  TChar "
	";
  TStart "g" [];
  TChar "
		";
  TStart "path" [mkAttr "style" "fill:#69BE5D;"; mkAttr "d" "M359.873,344.438c-1.638,0-3.186,0.317-4.67,0.778c-4.7-6.654-12.497-11.028-21.351-11.028    c-8.854,0-16.651,4.375-21.351,11.028c-1.484-0.461-3.032-0.778-4.67-0.778c-8.623,0-15.613,6.884-15.613,15.375h83.268    C375.486,351.321,368.496,344.438,359.873,344.438z"];
  TEnd "path";
  TChar "
	";
  TEnd "g";
  TChar "
	";
  TStart "g" [];
  TChar "
		";
  TStart "g" [];
  TChar "
			";
  TStart "path" [mkAttr "style" "fill:#69BE5D;"; mkAttr "d" "M333.556,344.438c-1.638,0-3.186,0.317-4.67,0.778c-4.7-6.654-12.497-11.028-21.351-11.028     c-8.854,0-16.651,4.375-21.351,11.028c-1.484-0.461-3.032-0.778-4.67-0.778c-8.623,0-15.613,6.884-15.613,15.375h83.268     C349.169,351.321,342.179,344.438,333.556,344.438z"];
  TEnd "path";
  TChar "
		";
  TEnd "g";
  TChar "
		";
  TStart "g" [];
  TChar "
			";
  TStart "path" [mkAttr "style" "fill:#9DC85C;"; mkAttr "d" "M344.218,344.437c-1.638,0-3.186,0.317-4.67,0.778c-4.7-6.654-12.497-11.028-21.352-11.028     c-1.841,0-3.6,0.295-5.331,0.655c6.596,1.369,12.298,5.103,16.02,10.374c1.484-0.461,3.032-0.778,4.67-0.778     c8.623,0,15.613,6.884,15.613,15.375h10.662C359.831,351.321,352.841,344.437,344.218,344.437z"];
  TEnd "path";
  TChar "
		";
  TEnd "g";
  TChar "
	";
  TEnd "g";
  TChar "
";
  TEnd "g";
  TChar "
";
  TStart "g" [];
  TChar "
";
  TEnd "g";
  TChar "
";
  TStart "g" [];
  TChar "
";
  TEnd "g";
  TChar "
";
  TStart "g" [];
  TChar "
";
  TEnd "g";
  TChar "
";
  TStart "g" [];
  TChar "
";
  TEnd "g";
  TChar "
";
  TStart "g" [];
  TChar "
";
  TEnd "g";
  TChar "
";
  TStart "g" [];
  TChar "
";
  TEnd "g";
  TChar "
";
  TStart "g" [];
  TChar "
";
  TEnd "g";
  TChar "
";
  TStart "g" [];
  TChar "
";
  TEnd "g";
  TChar "
";
  TStart "g" [];
  TChar "
";
  TEnd "g";
  TChar "
";
  TStart "g" [];
  TChar "
";
  TEnd "g";
  TChar "
";
  TStart "g" [];
  TChar "
";
  TEnd "g";
  TChar "
";
  TStart "g" [];
  TChar "
";
  TEnd "g";
  TChar "
";
  TStart "g" [];
  TChar "
";
  TEnd "g";
  TChar "
";
  TStart "g" [];
  TChar "
";
  TEnd "g";
  TChar "
";
  TStart "g" [];
  TChar "
";
  TEnd "g";
  TChar "
";
  TEnd "svg"]%string.

(** testdata/testIcons/astronaut.svg *)
Definition t_astronaut : list token := [
  TOther;
  TOther;
  TStart "svg" [mkAttr "version" "1.1"; mkAttr "id" "Capa_1"; mkAttr "xmlns" "http://www.w3.org/2000/svg"; mkAttr "xlink" "http://www.w3.org/1999/xlink"; mkAttr "x" "0px"; mkAttr "y" "0px"; mkAttr "viewBox" "0 0 512 512"; mkAttr "style" "enable-background:new 0 0 512 512;"; mkAttr "space" "preserve"];
  TChar "
";
  TStart "g" [];
  TChar "
	";
  TStart "rect" [mkAttr "x" "136"; mkAttr "y" "232"; mkAttr "style" "fill:#E3E6E9;"; mkAttr "width" "16"; mkAttr "height" "48"];
  TEnd "rect";
  TChar "
	";
  TStart "rect" [mkAttr "x" "360"; mkAttr "y" "232"; mkAttr "style" "fill:#E3E6E9;"; mkAttr "width" "16"; mkAttr "height" "48"];
  TEnd "rect";
  TChar "
	";
  TStart "path" [mkAttr "style" "fill:#E3E6E9;"; mkAttr "d" "M320,144h-24v16c0,1.105-0.056,2.196-0.165,3.272c-0.246,2.427-0.773,4.769-1.531,7.004   c-0.141,0.415-0.289,0.826-0.446,1.234c-0.207,0.536-0.428,1.065-0.663,1.587c-0.319,0.71-0.656,1.41-1.024,2.091   c-0.076,0.14-0.157,0.276-0.234,0.415c-0.798,1.425-1.702,2.781-2.701,4.061c-0.304,0.39-0.617,0.772-0.938,1.147   c-0.536,0.625-1.089,1.235-1.671,1.817c-0.018,0.018-0.037,0.034-0.054,0.052c-0.652,0.649-1.333,1.267-2.039,1.858   c-0.613,0.513-1.247,1.001-1.898,1.468c-0.773,0.555-1.57,1.077-2.393,1.563c-0.471,0.278-0.95,0.543-1.436,0.798   c-0.724,0.379-1.461,0.735-2.216,1.058c-0.212,0.091-0.428,0.175-0.643,0.261c-3.21,1.293-6.674,2.089-10.302,2.273   C265.101,191.986,264.552,192,264,192h-8h-8c-17.673,0-32-14.327-32-32v-16h-24c-30.875,0-56,25.125-56,56v16h16   c0-8.837,7.164-16,16-16h8v16v16v48h16c0-4.422,3.578-8,8-8s8,3.578,8,8h16c0-4.422,3.578-8,8-8s8,3.578,8,8h16h80v-48v-16v-16h8   c8.836,0,16,7.163,16,16h16v-16C376,169.125,350.875,144,320,144z M296,240h-16c-4.422,0-8-3.578-8-8s3.578-8,8-8h16   c4.422,0,8,3.578,8,8S300.422,240,296,240z M296,216h-16c-4.422,0-8-3.578-8-8s3.578-8,8-8h16c4.422,0,8,3.578,8,8   S300.422,216,296,216z"];
  TEnd "path";
  TChar "
	";
  TStart "path" [mkAttr "style" "fill:#E3E6E9;"; mkAttr "d" "M360,331.542c-6.623,5.97-14.835,10.164-24,11.713V336v-24h-80h-16v8c0,4.422-3.578,8-8,8   s-8-3.578-8-8v-8h-16v8c0,4.422-3.578,8-8,8s-8-3.578-8-8v-8h-16v24v7.255c-9.165-1.549-17.377-5.744-24-11.713V296h-16   c0,24.047,17.773,44.016,40.875,47.469l14.19,113.545c2.874-0.656,5.862-1.014,8.935-1.014h40c4.418,0,8,3.582,8,8v-96   c0-4.414,3.586-8,8-8s8,3.586,8,8v96c0-4.418,3.582-8,8-8h40c3.073,0,6.06,0.358,8.935,1.014l14.19-113.545   C358.226,340.015,376,320.047,376,296h-16V331.542z"];
  TEnd "path";
  TChar "
	";
  TStart "path" [mkAttr "style" "fill:#B6B8BE;"; mkAttr "d" "M344,304c0,0.276-0.014,0.549-0.041,0.818c-0.041,0.407-0.122,0.802-0.223,1.189   c-0.05,0.193-0.104,0.383-0.168,0.569c-0.789,2.319-2.611,4.155-4.92,4.966c-0.83,0.292-1.719,0.458-2.648,0.458v24v7.255   c9.165-1.549,17.377-5.744,24-11.713V296h-16V304z"];
  TEnd "path";
  TChar "
	";
  TStart "path" [mkAttr "style" "fill:#B6B8BE;"; mkAttr "d" "M344,200h-8v16h24C360,207.163,352.836,200,344,200z"];
  TEnd "path";
  TChar "
	";
  TStart "rect" [mkAttr "x" "336"; mkAttr "y" "232"; mkAttr "style" "fill:#B6B8BE;"; mkAttr "width" "24"; mkAttr "height" "48"];
  TEnd "rect";
  TChar "
	";
  TStart "path" [mkAttr "style" "fill:#B6B8BE;"; mkAttr "d" "M168,304v-8h-16v35.542c6.623,5.97,14.835,10.164,24,11.713V336v-24   C171.582,312,168,308.418,168,304z"];
  TEnd "path";
  TChar "
	";
  TStart "rect" [mkAttr "x" "152"; mkAttr "y" "232"; mkAttr "style" "fill:#B6B8BE;"; mkAttr "width" "24"; mkAttr "height" "48"];
  TEnd "rect";
  TChar "
	";
  TStart "path" [mkAttr "style" "fill:#B6B8BE;"; mkAttr "d" "M176,200h-8c-8.836,0-16,7.163-16,16h24V200z"];
  TEnd "path";
  TChar "
	";
  TStart "path" [mkAttr "style" "fill:#FF9300;"; mkAttr "d" "M200,120h56V0c-44.109,0-80,35.891-80,80c0,15.898,4.656,31.266,13.477,44.445   c0.682,1.019,1.583,1.841,2.609,2.443C192.628,122.998,195.96,120,200,120z"];
  TEnd "path";
  TChar "
	";
  TStart "path" [mkAttr "style" "fill:#FFCF00;"; mkAttr "d" "M312,120c4.042,0,7.374,3,7.915,6.893c1.026-0.601,1.927-1.421,2.609-2.44   C331.336,111.281,336,95.906,336,80c0-44.109-35.891-80-80-80v120H312z"];
  TEnd "path";
  TChar "
	";
  TStart "path" [mkAttr "style" "fill:#888693;"; mkAttr "d" "M224,136h16h16v-8v-8h-56c-4.04,0-7.372,2.998-7.914,6.889C192.035,127.253,192,127.622,192,128v16   h24C216,139.582,219.582,136,224,136z"];
  TEnd "path";
  TChar "
	";
  TStart "path" [mkAttr "style" "fill:#FF4F19;"; mkAttr "d" "M296,200h-16c-4.422,0-8,3.578-8,8s3.578,8,8,8h16c4.422,0,8-3.578,8-8S300.422,200,296,200z"];
  TEnd "path";
  TChar "
	";
  TStart "path" [mkAttr "style" "fill:#FF4F19;"; mkAttr "d" "M296,224h-16c-4.422,0-8,3.578-8,8s3.578,8,8,8h16c4.422,0,8-3.578,8-8S300.422,224,296,224z"];
  TEnd "path";
  TChar "
	";
  TStart "path" [mkAttr "style" "fill:#B6B8BE;"; mkAttr "d" "M312,120h-56v8v8h16h16c4.418,0,8,3.582,8,8h24v-16c0-0.377-0.035-0.744-0.085-1.107   C319.374,123,316.042,120,312,120z"];
  TEnd "path";
  TChar "
	";
  TStart "path" [mkAttr "style" "fill:#5C546A;"; mkAttr "d" "M240,152v-16h-16c-4.418,0-8,3.582-8,8v16c0,17.673,14.327,32,32,32h8v-24   C247.163,168,240,160.836,240,152z"];
  TEnd "path";
  TChar "
	";
  TStart "path" [mkAttr "style" "fill:#5C546A;"; mkAttr "d" "M296,160c0,1.105-0.056,2.196-0.165,3.272C295.944,162.196,296,161.104,296,160z"];
  TEnd "path";
  TChar "
	";
  TStart "path" [mkAttr "style" "fill:#5C546A;"; mkAttr "d" "M276.592,189.424c-0.212,0.091-0.428,0.175-0.643,0.261   C276.163,189.599,276.379,189.515,276.592,189.424z"];
  TEnd "path";
  TChar "
	";
  TStart "path" [mkAttr "style" "fill:#5C546A;"; mkAttr "d" "M284.534,184.537c-0.613,0.513-1.247,1.001-1.898,1.468   C283.287,185.538,283.921,185.051,284.534,184.537z"];
  TEnd "path";
  TChar "
	";
  TStart "path" [mkAttr "style" "fill:#5C546A;"; mkAttr "d" "M295.835,163.272c-0.246,2.427-0.773,4.769-1.531,7.004   C295.062,168.041,295.588,165.698,295.835,163.272z"];
  TEnd "path";
  TChar "
	";
  TStart "path" [mkAttr "style" "fill:#5C546A;"; mkAttr "d" "M280.244,187.568c-0.471,0.278-0.95,0.543-1.436,0.798   C279.294,188.111,279.773,187.846,280.244,187.568z"];
  TEnd "path";
  TChar "
	";
  TStart "path" [mkAttr "style" "fill:#5C546A;"; mkAttr "d" "M289.236,179.664c-0.304,0.39-0.617,0.772-0.938,1.147   C288.619,180.436,288.932,180.053,289.236,179.664z"];
  TEnd "path";
  TChar "
	";
  TStart "path" [mkAttr "style" "fill:#5C546A;"; mkAttr "d" "M293.858,171.51c-0.207,0.536-0.428,1.065-0.663,1.587   C293.43,172.575,293.651,172.046,293.858,171.51z"];
  TEnd "path";
  TChar "
	";
  TStart "path" [mkAttr "style" "fill:#5C546A;"; mkAttr "d" "M292.171,175.188c-0.076,0.14-0.157,0.276-0.234,0.415   C292.014,175.464,292.096,175.327,292.171,175.188z"];
  TEnd "path";
  TChar "
	";
  TStart "path" [mkAttr "style" "fill:#5C546A;"; mkAttr "d" "M286.627,182.627c-0.018,0.018-0.037,0.034-0.054,0.052   C286.591,182.661,286.61,182.645,286.627,182.627z"];
  TEnd "path";
  TChar "
	";
  TStart "path" [mkAttr "style" "fill:#888693;"; mkAttr "d" "M288,136h-16v16c0,8.837-7.163,16-16,16v24h8c0.552,0,1.101-0.014,1.647-0.042   c3.628-0.184,7.092-0.98,10.302-2.273c0.215-0.086,0.431-0.17,0.643-0.261c0.755-0.324,1.493-0.68,2.216-1.058   c0.486-0.254,0.965-0.519,1.436-0.798c0.822-0.486,1.62-1.008,2.393-1.563c0.65-0.467,1.285-0.954,1.898-1.468   c0.705-0.591,1.387-1.209,2.039-1.858c0.018-0.018,0.037-0.034,0.054-0.052c0.582-0.582,1.135-1.192,1.671-1.817   c0.321-0.375,0.634-0.757,0.938-1.147c0.999-1.28,1.903-2.636,2.701-4.061c0.078-0.139,0.159-0.275,0.234-0.415   c0.368-0.681,0.705-1.381,1.024-2.091c0.234-0.522,0.456-1.051,0.663-1.587c0.157-0.407,0.305-0.819,0.446-1.234   c0.758-2.235,1.284-4.578,1.531-7.004c0.109-1.076,0.165-2.167,0.165-3.272v-16C296,139.581,292.418,136,288,136z"];
  TEnd "path";
  TChar "
	";
  TStart "path" [mkAttr "style" "fill:#FF4F19;"; mkAttr "d" "M256,168c8.837,0,16-7.163,16-16v-16h-16v8V168z"];
  TEnd "path";
  TChar "
	";
  TStart "path" [mkAttr "style" "fill:#E5001E;"; mkAttr "d" "M240,152c0,8.837,7.163,16,16,16v-24v-8h-16V152z"];
  TEnd "path";
  TChar "
	";
  TStart "rect" [mkAttr "x" "336"; mkAttr "y" "216"; mkAttr "style" "fill:#E5001E;"; mkAttr "width" "24"; mkAttr "height" "16"];
  TEnd "rect";
  TChar "
	";
  TStart "rect" [mkAttr "x" "152"; mkAttr "y" "216"; mkAttr "style" "fill:#E5001E;"; mkAttr "width" "24"; mkAttr "height" "16"];
  TEnd "rect";
  TChar "
	";
  TStart "rect" [mkAttr "x" "360"; mkAttr "y" "216"; mkAttr "style" "fill:#FF4F19;"; mkAttr "width" "16"; mkAttr "height" "16"];
  TEnd "rect";
  TChar "
	";
  TStart "rect" [mkAttr "x" "136"; mkAttr "y" "216"; mkAttr "style" "fill:#FF4F19;"; mkAttr "width" "16"; mkAttr "height" "16"];
  TEnd "rect";
  TChar "
	";
  TStart "path" [mkAttr "style" "fill:#5C546A;"; mkAttr "d" "M152,296h16v8c0,4.418,3.582,8,8,8h16v-32h-16h-24V296z"];
  TEnd "path";
  TChar "
	";
  TStart "rect" [mkAttr "x" "136"; mkAttr "y" "280"; mkAttr "style" "fill:#888693;"; mkAttr "width" "16"; mkAttr "height" "16"];
  TEnd "rect";
  TChar "
	";
  TStart "path" [mkAttr "style" "fill:#5C546A;"; mkAttr "d" "M344,288v8h16v-16h-24C340.418,280,344,283.581,344,288z"];
  TEnd "path";
  TChar "
	";
  TStart "rect" [mkAttr "x" "360"; mkAttr "y" "280"; mkAttr "style" "fill:#888693;"; mkAttr "width" "16"; mkAttr "height" "16"];
  TEnd "rect";
  TChar "
	";
  TStart "rect" [mkAttr "x" "208"; mkAttr "y" "280"; mkAttr "style" "fill:#5C546A;"; mkAttr "width" "16"; mkAttr "height" "32"];
  TEnd "rect";
  TChar "
	";
  TStart "rect" [mkAttr "x" "240"; mkAttr "y" "280"; mkAttr "style" "fill:#5C546A;"; mkAttr "width" "16"; mkAttr "height" "32"];
  TEnd "rect";
  TChar "
	";
  TStart "path" [mkAttr "style" "fill:#5C546A;"; mkAttr "d" "M343.568,306.576c-0.789,2.319-2.611,4.155-4.92,4.966   C340.957,310.731,342.779,308.895,343.568,306.576z"];
  TEnd "path";
  TChar "
	";
  TStart "path" [mkAttr "style" "fill:#5C546A;"; mkAttr "d" "M343.736,306.006c0.1-0.387,0.181-0.781,0.223-1.189   C343.917,305.225,343.836,305.619,343.736,306.006z"];
  TEnd "path";
  TChar "
	";
  TStart "path" [mkAttr "style" "fill:#888693;"; mkAttr "d" "M336,312c0.93,0,1.818-0.167,2.648-0.458c2.309-0.811,4.131-2.647,4.92-4.966   c0.064-0.187,0.118-0.377,0.168-0.569c0.1-0.387,0.181-0.781,0.223-1.189c0.027-0.269,0.041-0.542,0.041-0.818v-8v-8   c0-4.418-3.582-8-8-8h-80v32H336z"];
  TEnd "path";
  TChar "
	";
  TStart "path" [mkAttr "style" "fill:#FF9300;"; mkAttr "d" "M192,320c0,4.422,3.578,8,8,8s8-3.578,8-8v-8v-32c0-4.422-3.578-8-8-8s-8,3.578-8,8v32V320z"];
  TEnd "path";
  TChar "
	";
  TStart "path" [mkAttr "style" "fill:#E5001E;"; mkAttr "d" "M224,320c0,4.422,3.578,8,8,8s8-3.578,8-8v-8v-32c0-4.422-3.578-8-8-8s-8,3.578-8,8v32V320z"];
  TEnd "path";
  TChar "
	";
  TStart "path" [mkAttr "style" "fill:#888693;"; mkAttr "d" "M160.432,506.576c0.789,2.319,2.611,4.155,4.92,4.966   C163.043,510.731,161.221,508.895,160.432,506.576z"];
  TEnd "path";
  TChar "
	";
  TStart "path" [mkAttr "style" "fill:#888693;"; mkAttr "d" "M247.959,504.818c-0.041,0.407-0.122,0.802-0.223,1.189   C247.836,505.619,247.917,505.225,247.959,504.818z"];
  TEnd "path";
  TChar "
	";
  TStart "path" [mkAttr "style" "fill:#888693;"; mkAttr "d" "M160.264,506.006c-0.1-0.387-0.181-0.781-0.223-1.189   C160.083,505.225,160.164,505.619,160.264,506.006z"];
  TEnd "path";
  TChar "
	";
  TStart "path" [mkAttr "style" "fill:#888693;"; mkAttr "d" "M242.648,511.542c2.309-0.811,4.131-2.647,4.92-4.966   C246.779,508.895,244.957,510.731,242.648,511.542z"];
  TEnd "path";
  TChar "
	";
  TStart "path" [mkAttr "style" "fill:#888693;"; mkAttr "d" "M240,456h-40c-3.073,0-6.06,0.358-8.935,1.014C173.277,461.074,160,476.981,160,496   c0-2.74,0.281-5.415,0.806-8H248v-24C248,459.581,244.418,456,240,456z"];
  TEnd "path";
  TChar "
	";
  TStart "path" [mkAttr "style" "fill:#888693;"; mkAttr "d" "M264.264,506.006c-0.1-0.387-0.181-0.781-0.223-1.189   C264.083,505.225,264.164,505.619,264.264,506.006z"];
  TEnd "path";
  TChar "
	";
  TStart "path" [mkAttr "style" "fill:#888693;"; mkAttr "d" "M346.648,511.542c2.309-0.811,4.131-2.647,4.92-4.966   C350.779,508.895,348.957,510.731,346.648,511.542z"];
  TEnd "path";
  TChar "
	";
  TStart "path" [mkAttr "style" "fill:#888693;"; mkAttr "d" "M351.958,504.818c-0.041,0.407-0.122,0.802-0.223,1.189   C351.836,505.619,351.917,505.225,351.958,504.818z"];
  TEnd "path";
  TChar "
	";
  TStart "path" [mkAttr "style" "fill:#888693;"; mkAttr "d" "M264.432,506.576c0.789,2.319,2.611,4.155,4.92,4.966   C267.043,510.731,265.221,508.895,264.432,506.576z"];
  TEnd "path";
  TChar "
	";
  TStart "path" [mkAttr "style" "fill:#888693;"; mkAttr "d" "M272,456c-4.418,0-8,3.582-8,8v24h87.194c0.525,2.585,0.806,5.26,0.806,8   c0-19.018-13.277-34.925-31.065-38.986C318.06,456.358,315.073,456,312,456H272z"];
  TEnd "path";
  TChar "
	";
  TStart "path" [mkAttr "style" "fill:#B6B8BE;"; mkAttr "d" "M160,496v8c0,0.276,0.014,0.549,0.041,0.818c0.041,0.407,0.122,0.802,0.223,1.189   c0.05,0.193,0.104,0.383,0.168,0.569c0.789,2.319,2.611,4.155,4.92,4.966c0.83,0.292,1.719,0.458,2.648,0.458h72   c0.93,0,1.818-0.167,2.648-0.458c2.309-0.811,4.131-2.647,4.92-4.966c0.064-0.187,0.118-0.377,0.168-0.569   c0.1-0.387,0.181-0.781,0.223-1.189c0.027-0.269,0.041-0.542,0.041-0.818v-16h-87.194C160.281,490.585,160,493.26,160,496z"];
  TEnd "path";
  TChar "
	";
  TStart "path" [mkAttr "style" "fill:#B6B8BE;"; mkAttr "d" "M264,488v16c0,0.276,0.014,0.549,0.041,0.818c0.041,0.407,0.122,0.802,0.223,1.189   c0.05,0.193,0.104,0.383,0.168,0.569c0.789,2.319,2.611,4.155,4.92,4.966c0.83,0.292,1.719,0.458,2.648,0.458h72   c0.93,0,1.818-0.167,2.648-0.458c2.309-0.811,4.131-2.647,4.92-4.966c0.064-0.187,0.118-0.377,0.168-0.569   c0.1-0.387,0.181-0.781,0.223-1.189c0.027-0.269,0.041-0.542,0.041-0.818v-8c0-2.74-0.281-5.415-0.806-8H264z"];
  TEnd "path";
  TChar "
";
  TEnd "g";
  TChar "
";
  TStart "g" [];
  TChar "
";
  TEnd "g";
  TChar "
";
  TStart "g" [];
  TChar "
";
  TEnd "g";
  TChar "
";
  TStart "g" [];
  TChar "
";
  TEnd "g";
  TChar "
";
  TStart "g" [];
  TChar "
";
  TEnd "g";
  TChar "
";
  TStart "g" [];
  TChar "
";
  TEnd "g";
  TChar "
";
  TStart "g" [];
  TChar "
";
  TEnd "g";
  TChar "
";
  TStart "g" [];
  TChar "
";
  TEnd "g";
  TChar "
";
  TStart "g" [];
  TChar "
";
  TEnd "g";
  TChar "
";
  TStart "g" [];
  TChar "
";
  TEnd "g";
  TChar "
";
  TStart "g" [];
  TChar "
";
  TEnd "g";
  TChar "
";
  TStart "g" [];
  TChar "
";
  TEnd "g";
  TChar "
";
  TStart "g" [];
  TChar "
";
  TEnd "g";
  TChar "
";
  TStart "g" [];
  TChar "
";
  TEnd "g";
  TChar "
";
  TStart "g" [];
  TChar "
";
  TEnd "g";
  TChar "
";
  TStart "g" [];
  TChar "
";
  TEnd "g";
  TChar "
";
  TEnd "svg"]%string.

(** testdata/testIcons/jupiter.svg *)
Definition t_jupiter : list token := [
  TOther;
  TOther;
  TStart "svg" [mkAttr "version" "1.1"; mkAttr "id" "Capa_1"; mkAttr "xmlns" "http://www.w3.org/2000/svg"; mkAttr "xlink" "http://www.w3.org/1999/xlink"; mkAttr "x" "0px"; mkAttr "y" "0px"; mkAttr "viewBox" "0 0 480 480"; mkAttr "style" "enable-background:new 0 0 480 480;"; mkAttr "space" "preserve"];
  TChar "
";
  TStart "g" [];
  TChar "
	";
  TStart "path" [mkAttr "style" "fill:#FFD042;"; mkAttr "d" "M412.665,73.326c0.79,0.818,1.573,1.643,2.351,2.473C414.238,74.969,413.455,74.144,412.665,73.326z   "];
  TEnd "path";
  TChar "
	";
  TStart "path" [mkAttr "style" "fill:#FFD042;"; mkAttr "d" "M423.028,84.774c1.452,1.71,2.881,3.442,4.285,5.193C425.909,88.216,424.48,86.485,423.028,84.774z"];
  TEnd "path";
  TChar "
	";
  TStart "path" [mkAttr "style" "fill:#FFD042;"; mkAttr "d" "M415.641,76.469c1.485,1.594,2.95,3.208,4.391,4.843C418.59,79.677,417.126,78.063,415.641,76.469z"];
  TEnd "path";
  TChar "
	";
  TStart "path" [mkAttr "style" "fill:#FFD042;"; mkAttr "d" "M382.135,46.614c0.755,0.556,1.509,1.112,2.257,1.676C383.643,47.725,382.889,47.169,382.135,46.614   z"];
  TEnd "path";
  TChar "
	";
  TStart "path" [mkAttr "style" "fill:#FFD042;"; mkAttr "d" "M404.606,65.36c0.795,0.75,1.583,1.507,2.368,2.267C406.189,66.867,405.401,66.11,404.606,65.36z"];
  TEnd "path";
  TChar "
	";
  TStart "path" [mkAttr "style" "fill:#FFD042;"; mkAttr "d" "M386.124,49.618c1.198,0.921,2.389,1.852,3.569,2.795C388.513,51.47,387.322,50.539,386.124,49.618z   "];
  TEnd "path";
  TChar "
	";
  TStart "path" [mkAttr "style" "fill:#FFD042;"; mkAttr "d" "M427.638,90.371c0.749,0.938,1.492,1.882,2.228,2.832C429.13,92.253,428.387,91.309,427.638,90.371z   "];
  TEnd "path";
  TChar "
	";
  TStart "path" [mkAttr "style" "fill:#FFD042;"; mkAttr "d" "M391.07,53.522c1.68,1.363,3.344,2.745,4.985,4.151C394.413,56.267,392.75,54.885,391.07,53.522z"];
  TEnd "path";
  TChar "
	";
  TStart "path" [mkAttr "style" "fill:#FFD042;"; mkAttr "d" "M399.639,60.812c1.576,1.406,3.135,2.83,4.674,4.276C402.775,63.641,401.216,62.217,399.639,60.812z   "];
  TEnd "path";
  TChar "
	";
  TStart "path" [mkAttr "style" "fill:#FFD042;"; mkAttr "d" "M396.176,57.775c0.79,0.678,1.573,1.364,2.355,2.052C397.749,59.139,396.966,58.453,396.176,57.775z   "];
  TEnd "path";
  TChar "
	";
  TStart "path" [mkAttr "style" "fill:#FFD042;"; mkAttr "d" "M420.349,81.668c0.774,0.881,1.541,1.767,2.302,2.659C421.889,83.436,421.123,82.549,420.349,81.668   z"];
  TEnd "path";
  TChar "
	";
  TStart "path" [mkAttr "style" "fill:#FFD042;"; mkAttr "d" "M279.759,476.703c-3.803,0.636-7.637,1.178-11.499,1.633   C272.122,477.882,275.956,477.337,279.759,476.703z"];
  TEnd "path";
  TChar "
	";
  TStart "path" [mkAttr "style" "fill:#FFD042;"; mkAttr "d" "M265.323,478.671c-0.855,0.09-1.714,0.167-2.571,0.248   C263.609,478.839,264.468,478.761,265.323,478.671z"];
  TEnd "path";
  TChar "
	";
  TStart "path" [mkAttr "style" "fill:#FFD042;"; mkAttr "d" "M285.145,475.741c-1.291,0.246-2.583,0.486-3.881,0.712   C282.562,476.229,283.854,475.987,285.145,475.741z"];
  TEnd "path";
  TChar "
	";
  TStart "path" [mkAttr "style" "fill:#FFD042;"; mkAttr "d" "M259.597,479.199c-0.82,0.066-1.641,0.127-2.463,0.185   C257.956,479.326,258.777,479.266,259.597,479.199z"];
  TEnd "path";
  TChar "
	";
  TStart "path" [mkAttr "style" "fill:#FFD042;"; mkAttr "d" "M253.764,479.598c-0.767,0.043-1.534,0.087-2.303,0.123   C252.23,479.685,252.997,479.641,253.764,479.598z"];
  TEnd "path";
  TChar "
	";
  TStart "path" [mkAttr "style" "fill:#FFD042;"; mkAttr "d" "M290.549,474.649c-1.367,0.294-2.738,0.575-4.114,0.845   C287.811,475.224,289.182,474.942,290.549,474.649z"];
  TEnd "path";
  TChar "
	";
  TStart "path" [mkAttr "style" "fill:#FFD042;"; mkAttr "d" "M479.139,219.72c0.065,0.767,0.135,1.533,0.192,2.303   C479.274,221.253,479.203,220.488,479.139,219.72z"];
  TEnd "path";
  TChar "
	";
  TStart "path" [mkAttr "style" "fill:#FFD042;"; mkAttr "d" "M479.646,226.995c0.033,0.622,0.059,1.245,0.088,1.868   C479.705,228.24,479.679,227.617,479.646,226.995z"];
  TEnd "path";
  TChar "
	";
  TStart "path" [mkAttr "style" "fill:#FFD042;"; mkAttr "d" "M479.881,232.748c0.017,0.576,0.035,1.152,0.049,1.729   C479.917,233.9,479.898,233.324,479.881,232.748z"];
  TEnd "path";
  TChar "
	";
  TStart "path" [mkAttr "style" "fill:#FFD042;"; mkAttr "d" "M478.571,213.803c0.106,0.975,0.208,1.951,0.302,2.93   C478.779,215.754,478.677,214.778,478.571,213.803z"];
  TEnd "path";
  TChar "
	";
  TStart "path" [mkAttr "style" "fill:#FFD042;"; mkAttr "d" "M363.255,34.04c0.695,0.417,1.389,0.835,2.08,1.259C364.644,34.875,363.95,34.457,363.255,34.04z"];
  TEnd "path";
  TChar "
	";
  TStart "path" [mkAttr "style" "fill:#FFD042;"; mkAttr "d" "M299.498,7.438c0.455,0.116,0.907,0.237,1.36,0.355C300.405,7.675,299.953,7.554,299.498,7.438z"];
  TEnd "path";
  TChar "
	";
  TStart "path" [mkAttr "style" "fill:#FFD042;"; mkAttr "d" "M293.363,5.963c0.421,0.095,0.843,0.188,1.263,0.286C294.206,6.152,293.784,6.059,293.363,5.963z"];
  TEnd "path";
  TChar "
	";
  TStart "path" [mkAttr "style" "fill:#FFD042;"; mkAttr "d" "M310.779,10.615c0.504,0.156,1.006,0.315,1.509,0.474C311.785,10.93,311.283,10.77,310.779,10.615z"];
  TEnd "path";
  TChar "
	";
  TStart "path" [mkAttr "style" "fill:#FFD042;"; mkAttr "d" "M287.989,4.803c0.399,0.081,0.796,0.167,1.194,0.25C288.784,4.97,288.387,4.884,287.989,4.803z"];
  TEnd "path";
  TChar "
	";
  TStart "path" [mkAttr "style" "fill:#FFD042;"; mkAttr "d" "M377.541,43.314c0.985,0.69,1.964,1.388,2.938,2.093C379.505,44.702,378.526,44.004,377.541,43.314z   "];
  TEnd "path";
  TChar "
	";
  TStart "path" [mkAttr "style" "fill:#FFD042;"; mkAttr "d" "M316.042,12.307c0.422,0.141,0.847,0.278,1.268,0.421C316.889,12.585,316.464,12.448,316.042,12.307   z"];
  TEnd "path";
  TChar "
	";
  TStart "path" [mkAttr "style" "fill:#FFD042;"; mkAttr "d" "M264.355,1.223c0.25,0.025,0.5,0.055,0.75,0.081C264.855,1.278,264.605,1.248,264.355,1.223z"];
  TEnd "path";
  TChar "
	";
  TStart "path" [mkAttr "style" "fill:#FFD042;"; mkAttr "d" "M252.258,0.309c0.147,0.007,0.293,0.018,0.44,0.025C252.551,0.327,252.405,0.316,252.258,0.309z"];
  TEnd "path";
  TChar "
	";
  TStart "path" [mkAttr "style" "fill:#FFD042;"; mkAttr "d" "M276.268,2.726c0.334,0.051,0.666,0.106,1,0.158C276.934,2.832,276.602,2.777,276.268,2.726z"];
  TEnd "path";
  TChar "
	";
  TStart "path" [mkAttr "style" "fill:#FFD042;"; mkAttr "d" "M281.682,3.616c0.426,0.075,0.853,0.147,1.278,0.224C282.535,3.763,282.108,3.69,281.682,3.616z"];
  TEnd "path";
  TChar "
	";
  TStart "path" [mkAttr "style" "fill:#FFD042;"; mkAttr "d" "M304.82,8.866c0.42,0.117,0.842,0.231,1.261,0.351C305.662,9.097,305.24,8.983,304.82,8.866z"];
  TEnd "path";
  TChar "
	";
  TStart "path" [mkAttr "style" "fill:#FFD042;"; mkAttr "d" "M321.817,14.316c0.55,0.199,1.097,0.403,1.645,0.606C322.915,14.718,322.367,14.515,321.817,14.316z   "];
  TEnd "path";
  TChar "
	";
  TStart "path" [mkAttr "style" "fill:#FFD042;"; mkAttr "d" "M348.163,25.71c0.789,0.399,1.574,0.803,2.357,1.21C349.736,26.513,348.951,26.109,348.163,25.71z"];
  TEnd "path";
  TChar "
	";
  TStart "path" [mkAttr "style" "fill:#FFD042;"; mkAttr "d" "M353.331,28.404c0.664,0.356,1.326,0.714,1.986,1.077C354.657,29.118,353.995,28.76,353.331,28.404z   "];
  TEnd "path";
  TChar "
	";
  TStart "path" [mkAttr "style" "fill:#FFD042;"; mkAttr "d" "M372.861,40.116c0.725,0.483,1.449,0.967,2.169,1.457C374.31,41.082,373.586,40.599,372.861,40.116z   "];
  TEnd "path";
  TChar "
	";
  TStart "path" [mkAttr "style" "fill:#FFD042;"; mkAttr "d" "M368.095,37.022c0.934,0.591,1.862,1.188,2.787,1.792C369.957,38.21,369.029,37.612,368.095,37.022z   "];
  TEnd "path";
  TChar "
	";
  TStart "path" [mkAttr "style" "fill:#FFD042;"; mkAttr "d" "M358.289,31.142c0.874,0.496,1.743,0.999,2.61,1.505C360.032,32.141,359.163,31.638,358.289,31.142z   "];
  TEnd "path";
  TChar "
	";
  TStart "path" [mkAttr "style" "fill:#FFD042;"; mkAttr "d" "M327.023,16.275c0.422,0.164,0.846,0.323,1.267,0.49C327.87,16.599,327.445,16.439,327.023,16.275z"];
  TEnd "path";
  TChar "
	";
  TStart "path" [mkAttr "style" "fill:#FFD042;"; mkAttr "d" "M343.11,23.228c0.628,0.299,1.254,0.601,1.879,0.906C344.364,23.829,343.738,23.527,343.11,23.228z"];
  TEnd "path";
  TChar "
	";
  TStart "path" [mkAttr "style" "fill:#FFD042;"; mkAttr "d" "M332.599,18.525c0.59,0.247,1.179,0.498,1.767,0.75C333.778,19.023,333.19,18.773,332.599,18.525z"];
  TEnd "path";
  TChar "
	";
  TStart "path" [mkAttr "style" "fill:#FFD042;"; mkAttr "d" "M337.726,20.745c0.66,0.294,1.319,0.591,1.975,0.891C339.044,21.336,338.385,21.039,337.726,20.745z   "];
  TEnd "path";
  TChar "
	";
  TStart "path" [mkAttr "style" "fill:#FFD042;"; mkAttr "d" "M412.369,73.022c-1.491-1.539-3.004-3.057-4.535-4.556   C409.365,69.966,410.878,71.483,412.369,73.022z"];
  TEnd "path";
  TChar "
	";
  TStart "path" [mkAttr "style" "fill:#FFD042;"; mkAttr "d" "M437.258,103.29c1.148,1.654,2.279,3.321,3.387,5.004c-1.979-3.008-4.021-5.97-6.13-8.881   c0.922,1.273,1.827,2.558,2.724,3.85C437.245,103.272,437.251,103.281,437.258,103.29z"];
  TEnd "path";
  TChar "
	";
  TStart "path" [mkAttr "style" "fill:#FFD042;"; mkAttr "d" "M240,325.714c-32.794,0-64.094-2.195-92.75-6.175c2.01,12.121,4.925,23.936,8.68,35.37   c-58.301-7.231-106.556-21.722-135.394-40.346c-0.046-0.03-0.09-0.059-0.135-0.089c-0.918-0.594-1.813-1.194-2.691-1.797   c-0.122-0.084-0.245-0.167-0.366-0.25c-0.911-0.631-1.802-1.265-2.669-1.905c-0.084-0.062-0.165-0.125-0.249-0.187   c-0.751-0.557-1.481-1.119-2.198-1.682c-0.194-0.153-0.388-0.306-0.58-0.459c-0.784-0.627-1.554-1.256-2.296-1.891c0,0,0,0,0,0   c7.501,26.137,19.31,50.433,34.63,72.091c11.966,5.287,25.682,10.079,40.849,14.272c5.292,1.463,10.751,2.856,16.386,4.167   c3.113,0.724,6.276,1.425,9.488,2.1c0,0-0.015-0.03-0.042-0.088c-0.055-0.116-0.163-0.344-0.312-0.67   c-0.522-1.139-1.551-3.47-2.614-6.346c-0.304-0.822-0.61-1.688-0.908-2.584c-0.298-0.896-0.588-1.821-0.858-2.761   c-0.244-0.847-0.469-1.706-0.673-2.565c-0.589-2.478-0.983-4.962-0.982-7.189c0-0.428,0.015-0.847,0.046-1.254   c0.056-0.741,0.172-1.438,0.341-2.091c0.158-0.612,0.378-1.175,0.65-1.692c0.127-0.242,0.267-0.473,0.421-0.69   c1.1-1.553,2.891-2.488,5.655-2.434c0.565,0.011,1.131,0.032,1.7,0.063c0.158,0.008,0.317,0.023,0.475,0.033   c0.411,0.026,0.822,0.051,1.235,0.086c0.218,0.019,0.438,0.045,0.656,0.066c0.354,0.034,0.706,0.067,1.061,0.108   c0.254,0.03,0.509,0.066,0.763,0.099c0.323,0.042,0.646,0.081,0.971,0.128c0.265,0.038,0.532,0.084,0.798,0.126   c0.315,0.05,0.629,0.097,0.946,0.152c0.275,0.048,0.552,0.102,0.828,0.153c0.31,0.057,0.619,0.113,0.93,0.175   c0.283,0.056,0.567,0.119,0.851,0.179c0.305,0.064,0.609,0.127,0.915,0.195c0.291,0.065,0.583,0.136,0.875,0.205   c0.302,0.071,0.603,0.141,0.906,0.216c0.297,0.074,0.596,0.153,0.894,0.231c0.298,0.077,0.595,0.153,0.893,0.234   c0.301,0.082,0.604,0.168,0.906,0.253c0.3,0.084,0.599,0.167,0.899,0.255c0.299,0.087,0.598,0.179,0.897,0.269   c0.306,0.092,0.611,0.183,0.918,0.279c0.299,0.093,0.598,0.19,0.897,0.287c0.309,0.099,0.618,0.198,0.928,0.3   c0.3,0.099,0.6,0.202,0.901,0.304c0.312,0.106,0.624,0.211,0.936,0.32c0.297,0.103,0.595,0.21,0.893,0.317   c0.32,0.114,0.639,0.227,0.959,0.344c0.293,0.107,0.586,0.217,0.88,0.326c0.327,0.122,0.653,0.243,0.981,0.368   c0.289,0.11,0.578,0.222,0.867,0.334c0.336,0.13,0.671,0.26,1.008,0.393c0.282,0.111,0.565,0.225,0.848,0.338   c0.345,0.138,0.69,0.277,1.036,0.418c0.276,0.112,0.552,0.227,0.828,0.341c0.358,0.148,0.716,0.296,1.074,0.447   c0.263,0.11,0.527,0.223,0.79,0.334c0.374,0.159,0.749,0.318,1.124,0.48c0.25,0.108,0.501,0.217,0.752,0.326   c0.391,0.17,0.783,0.341,1.175,0.514c0.236,0.104,0.473,0.209,0.71,0.315c0.408,0.182,0.818,0.364,1.228,0.549   c0.223,0.1,0.446,0.201,0.67,0.303c0.43,0.195,0.862,0.391,1.294,0.589c0.195,0.089,0.39,0.179,0.584,0.269   c0.47,0.216,0.941,0.434,1.413,0.654c0.155,0.072,0.309,0.144,0.464,0.217c0.512,0.239,1.026,0.48,1.54,0.722   c0.119,0.056,0.239,0.112,0.358,0.169c0.557,0.263,1.114,0.528,1.673,0.794c0.071,0.034,0.142,0.068,0.212,0.101   c4.173,1.991,8.405,4.067,12.69,6.152c-5.662-11.023-10.579-22.491-14.502-34.423C182.21,358.228,210.505,360,240,360   c26.929,0,52.859-1.477,77.145-4.208l31.322-4.361c55.284-9.26,99.103-25.38,122.187-45.147   c-7.497,26.132-19.3,50.424-34.614,72.081c-45.489,20.111-116.356,34.271-196.04,33.064c-24.076-0.365-47.591-11.348-69.693-22.104   c10.481,20.436,23.805,39.172,39.454,55.686c0.042,0.002,0.083,0.004,0.124,0.006c0.023,0.025,0.048,0.048,0.071,0.073   c9.848,0.411,19.873,0.625,30.044,0.625c55.516,0,106.705-6.311,148.079-16.917c-27.933,21.94-60.836,37.837-96.751,45.683   C399.21,450.972,480,354.929,480,240c0,8.019-0.411,15.942-1.18,23.759C448.937,299.535,353.366,325.714,240,325.714z"];
  TEnd "path";
  TChar "
	";
  TStart "path" [mkAttr "style" "fill:#FFD042;"; mkAttr "d" "M246.833,0.103c-0.433-0.012-0.867-0.023-1.301-0.032c0.034,0.001,0.068,0.002,0.101,0.003   C246.033,0.082,246.433,0.091,246.833,0.103z"];
  TEnd "path";
  TChar "
	";
  TStart "path" [mkAttr "style" "fill:#FFD042;"; mkAttr "d" "M432.7,96.938c0.076,0.103,0.148,0.209,0.224,0.312c0.426,0.575,0.853,1.149,1.274,1.728   c-1.386-1.905-2.797-3.789-4.237-5.651c0.924,1.194,1.833,2.401,2.734,3.613C432.697,96.939,432.698,96.939,432.7,96.938z"];
  TEnd "path";
  TChar "
	";
  TStart "path" [mkAttr "style" "fill:#FFD042;"; mkAttr "d" "M259.048,0.751c-0.308-0.024-0.616-0.05-0.925-0.073c0.171,0.013,0.341,0.029,0.512,0.042   C258.774,0.731,258.911,0.741,259.048,0.751z"];
  TEnd "path";
  TChar "
	";
  TStart "path" [mkAttr "style" "fill:#FFD042;"; mkAttr "d" "M444.853,115.016c1.641,2.693,3.249,5.408,4.79,8.167C405.504,147.032,328.129,162.857,240,162.857   c-22.083,0-43.49-0.994-63.869-2.859c-10.299,17.797-18.377,37.036-23.856,57.346c0.018,0.002,0.035,0.005,0.053,0.007   c-0.001,0.004-0.002,0.008-0.003,0.012c8.346,1.086,16.897,2.028,25.646,2.803l-0.002-0.007   c45.638,3.093,75.471,22.415,103.657,27.463c7.535,1.35,13.04-6.918,8.744-13.254l-8.622-12.716   c85.209-4.969,155.603-24.903,187.844-51.677c4.106,13.479,7.06,27.458,8.751,41.824c-4.413-37.698-17.558-72.721-37.365-103.001   c1.339,2.047,2.649,4.115,3.927,6.206C444.887,115.009,444.87,115.012,444.853,115.016z M252,224c-6.627,0-12-3.582-12-8   s5.373-8,12-8s12,3.582,12,8S258.627,224,252,224z"];
  TEnd "path";
  TChar "
	";
  TStart "path" [mkAttr "style" "fill:#FFD042;"; mkAttr "d" "M271.09,2.001c-0.428-0.055-0.857-0.107-1.286-0.16c0.399,0.049,0.798,0.098,1.196,0.149   C271.03,1.994,271.06,1.998,271.09,2.001z"];
  TEnd "path";
  TChar "
	";
  TStart "path" [mkAttr "style" "fill:#FFD042;"; mkAttr "d" "M245.748,479.927c0.644-0.015,1.285-0.042,1.928-0.062   C247.033,479.885,246.392,479.912,245.748,479.927z"];
  TEnd "path";
  TChar "
	";
  TStart "path" [mkAttr "style" "fill:#FF9300;"; mkAttr "d" "M193.571,475.495c-1.38-0.271-2.757-0.553-4.128-0.848   C190.815,474.942,192.191,475.225,193.571,475.495z"];
  TEnd "path";
  TChar "
	";
  TStart "path" [mkAttr "style" "fill:#FF9300;"; mkAttr "d" "M234.251,479.927c-0.644-0.015-1.285-0.042-1.928-0.062   C232.966,479.885,233.607,479.912,234.251,479.927z"];
  TEnd "path";
  TChar "
	";
  TStart "path" [mkAttr "style" "fill:#FF9300;"; mkAttr "d" "M198.739,476.454c-1.302-0.226-2.6-0.467-3.895-0.715   C196.139,475.986,197.436,476.228,198.739,476.454z"];
  TEnd "path";
  TChar "
	";
  TStart "path" [mkAttr "style" "fill:#FF9300;"; mkAttr "d" "M211.755,478.337c-3.871-0.455-7.715-0.999-11.527-1.636   C204.041,477.337,207.884,477.883,211.755,478.337z"];
  TEnd "path";
  TChar "
	";
  TStart "path" [mkAttr "style" "fill:#FF9300;"; mkAttr "d" "M222.867,479.384c-0.823-0.058-1.647-0.119-2.468-0.185   C221.22,479.266,222.043,479.326,222.867,479.384z"];
  TEnd "path";
  TChar "
	";
  TStart "path" [mkAttr "style" "fill:#FF9300;"; mkAttr "d" "M217.256,478.92c-0.862-0.081-1.724-0.159-2.583-0.249   C215.532,478.761,216.395,478.839,217.256,478.92z"];
  TEnd "path";
  TChar "
	";
  TStart "path" [mkAttr "style" "fill:#FF9300;"; mkAttr "d" "M228.539,479.721c-0.769-0.036-1.536-0.08-2.303-0.123   C227.003,479.641,227.77,479.685,228.539,479.721z"];
  TEnd "path";
  TChar "
	";
  TStart "path" [mkAttr "style" "fill:#FF9300;"; mkAttr "d" "M109.326,441.248c-3.761-2.449-7.449-5-11.061-7.649c-0.397-0.291-0.792-0.583-1.188-0.876   c-1.733-1.288-3.455-2.589-5.151-3.922c-0.002-0.001-0.004-0.003-0.006-0.004l0,0l0,0c0.001,0,0.003,0.001,0.004,0.001   c1.931,0.495,3.89,0.978,5.863,1.453c0.303,0.073,0.605,0.147,0.91,0.219c2.039,0.487,4.096,0.965,6.178,1.43   c0.007,0.002,0.013,0.003,0.02,0.004c30.904,6.91,66.55,11.491,104.865,13.105c-15.649-16.514-28.973-35.25-39.454-55.686   c-4.232-2.06-8.412-4.111-12.534-6.077c-0.071-0.034-0.142-0.068-0.212-0.101c-0.559-0.266-1.116-0.531-1.673-0.794   c-0.119-0.056-0.239-0.113-0.358-0.169c-0.514-0.243-1.028-0.483-1.54-0.722c-0.155-0.072-0.31-0.145-0.464-0.217   c-0.472-0.22-0.943-0.437-1.413-0.654c-0.195-0.09-0.39-0.18-0.584-0.269c-0.432-0.198-0.863-0.394-1.294-0.589   c-0.223-0.101-0.447-0.202-0.67-0.303c-0.41-0.185-0.819-0.367-1.228-0.549c-0.237-0.105-0.474-0.211-0.71-0.315   c-0.393-0.173-0.784-0.344-1.175-0.514c-0.251-0.109-0.502-0.219-0.752-0.326c-0.375-0.162-0.75-0.321-1.124-0.48   c-0.264-0.112-0.527-0.224-0.79-0.334c-0.359-0.151-0.717-0.299-1.074-0.447c-0.276-0.114-0.553-0.229-0.828-0.341   c-0.346-0.141-0.691-0.28-1.036-0.418c-0.283-0.113-0.566-0.227-0.848-0.338c-0.337-0.133-0.672-0.263-1.008-0.393   c-0.289-0.112-0.578-0.224-0.867-0.334c-0.328-0.125-0.654-0.246-0.981-0.368c-0.293-0.109-0.587-0.219-0.88-0.326   c-0.32-0.117-0.64-0.23-0.959-0.344c-0.298-0.106-0.596-0.213-0.893-0.317c-0.313-0.109-0.624-0.214-0.936-0.32   c-0.3-0.102-0.601-0.205-0.901-0.304c-0.31-0.103-0.619-0.201-0.928-0.3c-0.299-0.096-0.599-0.193-0.897-0.287   c-0.306-0.096-0.612-0.187-0.918-0.279c-0.299-0.09-0.599-0.182-0.897-0.269c-0.301-0.088-0.6-0.171-0.899-0.255   c-0.302-0.085-0.605-0.172-0.906-0.253c-0.299-0.081-0.596-0.156-0.893-0.234c-0.298-0.077-0.597-0.157-0.894-0.231   c-0.303-0.075-0.604-0.144-0.906-0.216c-0.292-0.069-0.584-0.14-0.875-0.205c-0.306-0.069-0.61-0.131-0.915-0.195   c-0.284-0.06-0.568-0.123-0.851-0.179c-0.311-0.062-0.62-0.117-0.93-0.175c-0.276-0.051-0.553-0.106-0.828-0.153   c-0.316-0.055-0.631-0.102-0.946-0.152c-0.266-0.042-0.533-0.088-0.798-0.126c-0.325-0.047-0.647-0.086-0.971-0.128   c-0.254-0.033-0.51-0.07-0.763-0.099c-0.355-0.041-0.708-0.073-1.061-0.108c-0.219-0.021-0.438-0.047-0.656-0.066   c-0.413-0.035-0.824-0.061-1.235-0.086c-0.158-0.01-0.317-0.024-0.475-0.033c-0.569-0.03-1.136-0.052-1.7-0.063   c-2.764-0.054-4.555,0.881-5.655,2.434c-0.154,0.218-0.293,0.449-0.421,0.69c-0.272,0.517-0.491,1.079-0.65,1.692   c-0.169,0.654-0.285,1.35-0.341,2.091c-0.031,0.407-0.045,0.826-0.046,1.254c-0.001,2.226,0.393,4.71,0.982,7.189   c0.204,0.859,0.429,1.718,0.673,2.565c0.271,0.94,0.56,1.865,0.858,2.761c0.298,0.896,0.604,1.762,0.908,2.584   c1.063,2.876,2.092,5.207,2.614,6.346c0.149,0.325,0.257,0.554,0.312,0.67c0.028,0.058,0.042,0.088,0.042,0.088   c-3.212-0.676-6.375-1.376-9.488-2.1c-5.635-1.311-11.095-2.704-16.386-4.167c-15.167-4.193-28.883-8.985-40.849-14.271   c-15.321-21.659-27.129-45.955-34.63-72.092l0,0c0,0,0,0,0-0.001c0.742,0.635,1.512,1.264,2.296,1.891   c0.192,0.153,0.386,0.306,0.58,0.459c0.717,0.564,1.447,1.125,2.198,1.682c0.084,0.062,0.165,0.125,0.249,0.187   c0.867,0.64,1.758,1.274,2.669,1.905c0.121,0.084,0.244,0.167,0.366,0.25c0.878,0.603,1.773,1.202,2.691,1.797   c0.045,0.029,0.09,0.059,0.135,0.089c28.838,18.624,77.093,33.115,135.394,40.346c-3.755-11.434-6.67-23.249-8.68-35.37   c-61.528-8.545-110.844-25.337-136.478-46.406c-0.091-0.075-0.179-0.15-0.27-0.224c-0.771-0.639-1.52-1.281-2.247-1.927   c-0.118-0.104-0.238-0.208-0.355-0.313c-0.781-0.703-1.54-1.41-2.269-2.122c-0.106-0.103-0.205-0.207-0.31-0.311   c-0.604-0.597-1.188-1.198-1.755-1.801c-0.174-0.185-0.348-0.371-0.519-0.557c-0.644-0.702-1.271-1.406-1.864-2.115   c-0.001-0.001-0.002-0.002-0.003-0.004v0c0,0,0,0,0,0C0.411,255.942,0,248.019,0,240c0,114.932,80.795,210.977,188.681,234.482   c-28.529-6.231-55.151-17.551-78.897-32.937C109.631,441.446,109.478,441.347,109.326,441.248z M152,392   c9.667,5.667,16.5,12.5,16,24c-0.5,11.5-46.5-12-48-24C118.5,380,139.792,384.843,152,392z"];
  TEnd "path";
  TChar "
	";
  TStart "path" [mkAttr "style" "fill:#FF9300;"; mkAttr "d" "M254.409,0.434c0.952,0.057,1.903,0.117,2.852,0.184C256.312,0.551,255.361,0.49,254.409,0.434z"];
  TEnd "path";
  TChar "
	";
  TStart "path" [mkAttr "style" "fill:#FF9300;"; mkAttr "d" "M240,0c1.436,0,2.869,0.014,4.3,0.04C242.869,0.014,241.436,0,240,0z"];
  TEnd "path";
  TChar "
	";
  TStart "path" [mkAttr "style" "fill:#FF9300;"; mkAttr "d" "M222.568,0.631c1.147-0.083,2.296-0.157,3.448-0.224C224.865,0.474,223.716,0.549,222.568,0.631z"];
  TEnd "path";
  TChar "
	";
  TStart "path" [mkAttr "style" "fill:#FF9300;"; mkAttr "d" "M240,0c-1.409,0-2.815,0.015-4.219,0.039c0.198-0.003,0.397-0.002,0.596-0.006   C237.582,0.012,238.79,0,240,0z"];
  TEnd "path";
  TChar "
	";
  TStart "path" [mkAttr "style" "fill:#FF9300;"; mkAttr "d" "M444.853,115.016c0.017-0.003,0.035-0.007,0.052-0.01c-1.278-2.09-2.588-4.158-3.927-6.206   c-0.11-0.169-0.222-0.337-0.333-0.505c-1.107-1.684-2.239-3.351-3.387-5.004C439.906,107.115,442.426,111.033,444.853,115.016z"];
  TEnd "path";
  TChar "
	";
  TStart "path" [mkAttr "style" "fill:#FF9300;"; mkAttr "d" "M347.327,25.343c0.112,0.056,0.224,0.111,0.336,0.167c0.802,0.404,1.6,0.813,2.396,1.225   c0.581,0.3,1.161,0.601,1.739,0.905c0.408,0.215,0.815,0.432,1.221,0.65c0.972,0.519,1.939,1.044,2.903,1.576   c0.11,0.061,0.22,0.122,0.33,0.183c0.552,0.306,1.108,0.607,1.657,0.918c0.195,0.11,0.399,0.205,0.594,0.316   c4.899,2.788,9.686,5.749,14.362,8.864c0.063,0.042,0.123,0.089,0.186,0.131c-6.821,0.306-13.564,0.908-20.225,1.773   c-4.947,0.873-9.987,1.69-15.118,2.45c-55.544,10.855-104.212,40.877-138.881,82.884c0.01,0,0.021,0.001,0.031,0.002   c-0.002,0.003-0.004,0.005-0.007,0.008c13.385,0.77,27.128,1.176,41.148,1.176c17.369,0,34.322-0.614,50.686-1.783   c3.126-0.223,6.23-0.467,9.312-0.73l29.238-3.176c40.795-5.412,76.311-14.455,103.459-25.942c-0.901-1.212-1.811-2.418-2.734-3.613   c-0.032-0.041-0.063-0.083-0.095-0.124c-0.736-0.95-1.479-1.894-2.228-2.832c-0.108-0.135-0.217-0.269-0.324-0.403   c-1.405-1.751-2.833-3.483-4.285-5.193c-0.126-0.149-0.251-0.298-0.378-0.447c-0.761-0.892-1.528-1.779-2.302-2.659   c-0.105-0.12-0.212-0.238-0.317-0.357c-1.442-1.635-2.906-3.248-4.391-4.843c-0.208-0.223-0.415-0.448-0.624-0.67   c-0.778-0.83-1.561-1.655-2.351-2.473c-0.098-0.102-0.198-0.202-0.296-0.303c-1.491-1.539-3.004-3.057-4.535-4.556   c-0.286-0.28-0.572-0.561-0.86-0.84c-0.785-0.76-1.573-1.518-2.368-2.267c-0.097-0.092-0.196-0.181-0.293-0.272   c-1.539-1.446-3.098-2.87-4.674-4.276c-0.369-0.329-0.738-0.657-1.109-0.984c-0.781-0.688-1.564-1.375-2.355-2.052   c-0.04-0.034-0.08-0.068-0.12-0.102c-1.642-1.407-3.306-2.789-4.985-4.151c-0.458-0.371-0.917-0.741-1.377-1.109   c-1.18-0.943-2.371-1.874-3.569-2.795c-0.577-0.444-1.152-0.89-1.733-1.328c-0.748-0.564-1.502-1.12-2.257-1.676   c-0.55-0.405-1.102-0.807-1.656-1.207c-0.974-0.705-1.953-1.402-2.938-2.093c-0.834-0.584-1.67-1.167-2.512-1.741   c-0.719-0.491-1.444-0.974-2.169-1.457c-0.657-0.438-1.317-0.871-1.979-1.302c-0.925-0.603-1.854-1.201-2.787-1.792   c-0.916-0.58-1.835-1.156-2.76-1.723c-0.69-0.424-1.385-0.842-2.08-1.259c-0.782-0.469-1.568-0.932-2.356-1.393   c-0.867-0.507-1.736-1.009-2.61-1.505c-0.987-0.56-1.977-1.115-2.972-1.662c-0.66-0.362-1.322-0.72-1.986-1.077   c-0.933-0.501-1.871-0.994-2.811-1.483c-0.783-0.407-1.569-0.811-2.357-1.21c-1.054-0.533-2.111-1.059-3.174-1.577   c-0.625-0.304-1.251-0.606-1.879-0.906c-1.131-0.539-2.268-1.07-3.409-1.592c-0.657-0.3-1.316-0.597-1.975-0.891   c-1.115-0.498-2.235-0.988-3.359-1.47c-0.588-0.252-1.177-0.502-1.767-0.75c-1.43-0.599-2.865-1.189-4.309-1.76   c-0.42-0.167-0.845-0.326-1.267-0.49c-1.183-0.46-2.37-0.912-3.561-1.354c-0.548-0.203-1.095-0.406-1.645-0.606   c-1.496-0.542-2.998-1.074-4.507-1.588c-0.421-0.143-0.846-0.28-1.268-0.421c-1.247-0.416-2.498-0.823-3.754-1.219   c-0.503-0.159-1.005-0.318-1.509-0.474c-1.56-0.481-3.125-0.948-4.698-1.397c-0.419-0.12-0.841-0.234-1.261-0.351   c-1.316-0.368-2.636-0.726-3.962-1.072c-0.453-0.119-0.906-0.24-1.36-0.355c-1.618-0.413-3.242-0.81-4.872-1.189   c-0.42-0.098-0.842-0.191-1.263-0.286c-1.389-0.315-2.782-0.619-4.18-0.91c-0.398-0.083-0.795-0.169-1.194-0.25   c-1.67-0.339-3.346-0.659-5.028-0.963c-0.425-0.077-0.852-0.149-1.278-0.224c-1.467-0.257-2.938-0.501-4.415-0.731   c-0.333-0.052-0.666-0.108-1-0.158c-1.718-0.261-3.443-0.5-5.173-0.724C298.188,5.517,323.851,13.568,347.327,25.343z"];
  TEnd "path";
  TChar "
	";
  TStart "path" [mkAttr "style" "fill:#FF9300;"; mkAttr "d" "M437.239,103.263c-0.897-1.292-1.802-2.577-2.724-3.85c-0.105-0.146-0.211-0.29-0.317-0.435   c-0.421-0.579-0.848-1.153-1.274-1.728C434.392,99.231,435.833,101.234,437.239,103.263z"];
  TEnd "path";
  TChar "
	";
  TStart "path" [mkAttr "style" "fill:#FF9300;"; mkAttr "d" "M252.92,0.347c-0.074-0.004-0.148-0.009-0.222-0.013c-0.147-0.008-0.293-0.018-0.44-0.025   c-0.717-0.036-1.436-0.062-2.154-0.092C251.044,0.256,251.983,0.297,252.92,0.347z"];
  TEnd "path";
  TChar "
	";
  TStart "path" [mkAttr "style" "fill:#FF9300;"; mkAttr "d" "M261.662,0.972c-0.87-0.078-1.741-0.152-2.614-0.221c-0.137-0.011-0.275-0.02-0.412-0.031   C259.646,0.799,260.655,0.882,261.662,0.972z"];
  TEnd "path";
  TChar "
	";
  TStart "path" [mkAttr "style" "fill:#FF9300;"; mkAttr "d" "M271,1.99c-0.398-0.051-0.797-0.1-1.196-0.149c-0.943-0.117-1.887-0.23-2.833-0.336   C268.317,1.656,269.661,1.817,271,1.99z"];
  TEnd "path";
  TChar "
	";
  TStart "path" [mkAttr "style" "fill:#FF9300;"; mkAttr "d" "M266.183,1.42c-0.359-0.039-0.719-0.079-1.078-0.117c-0.25-0.026-0.5-0.056-0.75-0.081   c-0.512-0.052-1.026-0.096-1.539-0.145C263.941,1.184,265.063,1.298,266.183,1.42z"];
  TEnd "path";
  TChar "
	";
  TStart "path" [mkAttr "style" "fill:#FF9300;"; mkAttr "d" "M248.606,0.155c-0.59-0.021-1.182-0.036-1.774-0.053c-0.4-0.011-0.8-0.021-1.2-0.03   C246.625,0.096,247.617,0.12,248.606,0.155z"];
  TEnd "path";
  TChar "
	";
  TStart "path" [mkAttr "style" "fill:#FF9300;"; mkAttr "d" "M234.539,0.068c-0.025,0-0.05,0.001-0.075,0.002c-0.385,0.009-0.77,0.017-1.155,0.027   c-0.594,0.016-1.189,0.034-1.782,0.055C232.529,0.117,233.533,0.091,234.539,0.068z"];
  TEnd "path";
  TChar "
	";
  TStart "path" [mkAttr "style" "fill:#FF9300;"; mkAttr "d" "M230.187,0.205c-0.738,0.03-1.476,0.059-2.212,0.095c-0.297,0.015-0.594,0.032-0.89,0.048   C228.117,0.293,229.152,0.246,230.187,0.205z"];
  TEnd "path";
  TChar "
	";
  TStart "path" [mkAttr "style" "fill:#FF7400;"; mkAttr "d" "M240,0c-1.21,0-2.418,0.012-3.623,0.033C237.583,0.016,238.79,0,240,0z"];
  TEnd "path";
  TChar "
	";
  TStart "path" [mkAttr "style" "fill:#FF7400;"; mkAttr "d" "M355.922,29.866c-0.964-0.532-1.931-1.057-2.903-1.576C353.99,28.81,354.959,29.333,355.922,29.866z   "];
  TEnd "path";
  TChar "
	";
  TStart "path" [mkAttr "style" "fill:#FF7400;"; mkAttr "d" "M373.052,40.278c-0.063-0.042-0.123-0.089-0.186-0.131c-4.676-3.115-9.463-6.076-14.362-8.864   c-0.195-0.111-0.399-0.206-0.594-0.316c-0.55-0.311-1.105-0.612-1.657-0.918c4.859,2.698,9.615,5.559,14.26,8.576   c-5.74,1.224-11.651,2.361-17.686,3.426C359.487,41.186,366.231,40.584,373.052,40.278z"];
  TEnd "path";
  TChar "
	";
  TStart "path" [mkAttr "style" "fill:#FF7400;"; mkAttr "d" "M347.663,25.51c-0.112-0.056-0.224-0.112-0.336-0.167C347.439,25.399,347.551,25.454,347.663,25.51z   "];
  TEnd "path";
  TChar "
	";
  TStart "path" [mkAttr "style" "fill:#FF7400;"; mkAttr "d" "M351.798,27.64c-0.578-0.304-1.158-0.605-1.739-0.905C350.64,27.036,351.22,27.335,351.798,27.64z"];
  TEnd "path";
  TChar "
	";
  TStart "path" [mkAttr "style" "fill:#FF7400;"; mkAttr "d" "M52.578,99.137c0.932,0.369,1.87,0.736,2.82,1.099c0.525,0.201,1.055,0.4,1.585,0.599   c0.892,0.335,1.793,0.667,2.7,0.996c0.55,0.2,1.098,0.4,1.653,0.598c0.968,0.345,1.948,0.686,2.932,1.025   c0.493,0.17,0.979,0.342,1.476,0.51c1.41,0.478,2.837,0.951,4.28,1.417c0.616,0.199,1.244,0.394,1.865,0.591   c0.879,0.279,1.759,0.557,2.65,0.832c0.766,0.236,1.54,0.468,2.314,0.701c0.753,0.226,1.51,0.451,2.271,0.675   c0.845,0.248,1.693,0.494,2.547,0.738c0.68,0.194,1.366,0.385,2.053,0.577c0.931,0.26,1.861,0.52,2.803,0.775   c0.477,0.129,0.962,0.255,1.442,0.384c3.741,0.999,7.565,1.963,11.472,2.888c0.344,0.082,0.686,0.164,1.032,0.245   c1.282,0.3,2.573,0.596,3.872,0.889c0.308,0.069,0.616,0.138,0.925,0.207c1.394,0.311,2.795,0.618,4.208,0.919   c0.016,0.003,0.031,0.007,0.047,0.01c26.81,5.712,57.003,9.716,89.304,11.574c34.669-42.007,83.337-72.029,138.881-82.884   c-29.992,4.443-62.991,6.927-97.709,6.927c-47.862,0-92.492-4.7-130.421-12.783c15.905-10.33,33.104-18.833,51.298-25.214   c-2.163,0.751-4.318,1.521-6.45,2.336c-1.229,0.469-2.448,0.957-3.667,1.445c-3.126,1.254-6.22,2.573-9.279,3.954   c-1.046,0.472-2.099,0.932-3.137,1.418c-3.832,1.796-7.618,3.673-11.336,5.663c-0.173,0.092-0.352,0.175-0.524,0.268   c-4.12,2.218-8.167,4.557-12.138,7.004c-0.315,0.194-0.621,0.403-0.935,0.599c-3.502,2.181-6.941,4.454-10.32,6.807   c-0.724,0.504-1.438,1.021-2.156,1.533c-3.066,2.186-6.08,4.439-9.037,6.763c-0.625,0.491-1.254,0.976-1.874,1.472   c-10.738,8.614-20.725,18.123-29.835,28.428c-0.348,0.394-0.687,0.795-1.033,1.192c-2.685,3.077-5.292,6.224-7.819,9.437   c-0.375,0.477-0.752,0.951-1.124,1.43c-0.976,1.26-1.928,2.541-2.883,3.818c1.295,0.547,2.613,1.088,3.946,1.624   C51.706,98.795,52.144,98.965,52.578,99.137z"];
  TEnd "path";
  TChar "
	";
  TStart "path" [mkAttr "style" "fill:#FF7400;"; mkAttr "d" "M181.505,7.213c-0.359,0.09-0.727,0.159-1.086,0.25c-4.439,1.135-8.822,2.412-13.159,3.791   c-1.019,0.324-2.019,0.689-3.032,1.026c-0.1,0.033-0.198,0.069-0.297,0.102c6.093-2.044,12.294-3.853,18.594-5.41   C182.187,7.055,181.844,7.128,181.505,7.213z"];
  TEnd "path";
  TChar "
	";
  TStart "path" [mkAttr "style" "fill:#FFEDB9;"; mkAttr "d" "M449.643,123.183c-1.541-2.759-3.149-5.474-4.79-8.167c-2.427-3.982-4.947-7.901-7.595-11.726   c-0.006-0.009-0.012-0.018-0.019-0.027c-1.406-2.029-2.847-4.031-4.315-6.013c-0.076-0.103-0.147-0.209-0.224-0.312   c-0.001,0.001-0.003,0.001-0.005,0.002c-27.148,11.487-62.664,20.53-103.459,25.942l-29.238,3.176   c-3.082,0.264-6.186,0.507-9.312,0.73c-16.364,1.169-33.317,1.783-50.686,1.783c-14.02,0-27.762-0.406-41.148-1.176   c-8.421,10.201-16.035,21.088-22.699,32.604c-0.222-0.02-0.441-0.043-0.663-0.063c0.215,0.02,0.426,0.042,0.641,0.062   c20.379,1.865,41.786,2.859,63.869,2.859C328.129,162.857,405.504,147.032,449.643,123.183z"];
  TEnd "path";
  TChar "
	";
  TStart "path" [mkAttr "style" "fill:#FFEDB9;"; mkAttr "d" "M49.289,132.085c-0.457-0.189-0.917-0.377-1.369-0.567   C48.372,131.708,48.832,131.896,49.289,132.085z"];
  TEnd "path";
  TChar "
	";
  TStart "path" [mkAttr "style" "fill:#FFEDB9;"; mkAttr "d" "M43.75,129.724c-0.061-0.027-0.123-0.054-0.183-0.081C43.627,129.671,43.689,129.697,43.75,129.724z   "];
  TEnd "path";
  TChar "
	";
  TStart "path" [mkAttr "style" "fill:#FFEDB9;"; mkAttr "d" "M39.492,127.776c-0.415-0.195-0.823-0.392-1.234-0.589   C38.668,127.384,39.076,127.581,39.492,127.776z"];
  TEnd "path";
  TChar "
	";
  TStart "path" [mkAttr "style" "fill:#FFEDB9;"; mkAttr "d" "M133.377,154.581c-0.541-0.089-1.083-0.177-1.622-0.267   C132.294,154.404,132.836,154.492,133.377,154.581z"];
  TEnd "path";
  TChar "
	";
  TStart "path" [mkAttr "style" "fill:#FFEDB9;"; mkAttr "d" "M53.932,133.948c-0.474-0.184-0.941-0.371-1.41-0.557C52.991,133.577,53.458,133.764,53.932,133.948   z"];
  TEnd "path";
  TChar "
	";
  TStart "path" [mkAttr "style" "fill:#FFEDB9;"; mkAttr "d" "M126.291,153.37c-0.743-0.132-1.48-0.268-2.219-0.402   C124.81,153.103,125.547,153.238,126.291,153.37z"];
  TEnd "path";
  TChar "
	";
  TStart "path" [mkAttr "style" "fill:#FFEDB9;"; mkAttr "d" "M120.035,152.215c-0.729-0.139-1.46-0.277-2.185-0.419   C118.575,151.938,119.305,152.076,120.035,152.215z"];
  TEnd "path";
  TChar "
	";
  TStart "path" [mkAttr "style" "fill:#FFEDB9;"; mkAttr "d" "M30.357,123.183c0.022,0.012,0.047,0.024,0.07,0.036C30.404,123.207,30.38,123.195,30.357,123.183   L30.357,123.183z"];
  TEnd "path";
  TChar "
	";
  TStart "path" [mkAttr "style" "fill:#FFEDB9;"; mkAttr "d" "M106.234,149.384c-0.67-0.148-1.334-0.299-2-0.449C104.9,149.085,105.564,149.236,106.234,149.384z"];
  TEnd "path";
  TChar "
	";
  TStart "path" [mkAttr "style" "fill:#FFEDB9;"; mkAttr "d" "M93.429,146.359c-0.302-0.076-0.605-0.151-0.906-0.228   C92.823,146.208,93.127,146.283,93.429,146.359z"];
  TEnd "path";
  TChar "
	";
  TStart "path" [mkAttr "style" "fill:#FFEDB9;"; mkAttr "d" "M100.328,148.036c-0.66-0.155-1.322-0.31-1.978-0.467   C99.006,147.726,99.668,147.881,100.328,148.036z"];
  TEnd "path";
  TChar "
	";
  TStart "path" [mkAttr "style" "fill:#FFEDB9;"; mkAttr "d" "M112.804,150.785c-0.419-0.086-0.839-0.172-1.256-0.259   C111.965,150.613,112.385,150.699,112.804,150.785z"];
  TEnd "path";
  TChar "
	";
  TStart "path" [mkAttr "style" "fill:#FFEDB9;"; mkAttr "d" "M87.419,144.793c-0.604-0.163-1.202-0.328-1.802-0.492C86.217,144.465,86.815,144.63,87.419,144.793   z"];
  TEnd "path";
  TChar "
	";
  TStart "path" [mkAttr "style" "fill:#FFEDB9;"; mkAttr "d" "M140.887,155.759c-0.793-0.119-1.587-0.238-2.375-0.36   C139.3,155.521,140.094,155.64,140.887,155.759z"];
  TEnd "path";
  TChar "
	";
  TStart "path" [mkAttr "style" "fill:#FFEDB9;"; mkAttr "d" "M58.762,135.779c-0.105-0.039-0.212-0.077-0.317-0.115C58.55,135.702,58.657,135.74,58.762,135.779z   "];
  TEnd "path";
  TChar "
	";
  TStart "path" [mkAttr "style" "fill:#FFEDB9;"; mkAttr "d" "M64.836,137.929c-0.519-0.178-1.04-0.355-1.555-0.535C63.796,137.573,64.317,137.75,64.836,137.929z   "];
  TEnd "path";
  TChar "
	";
  TStart "path" [mkAttr "style" "fill:#FFEDB9;"; mkAttr "d" "M69.944,139.634c-0.536-0.174-1.065-0.349-1.596-0.524C68.88,139.284,69.409,139.46,69.944,139.634z   "];
  TEnd "path";
  TChar "
	";
  TStart "path" [mkAttr "style" "fill:#FFEDB9;"; mkAttr "d" "M81.888,143.26c-0.587-0.167-1.176-0.334-1.758-0.503C80.712,142.926,81.301,143.092,81.888,143.26z   "];
  TEnd "path";
  TChar "
	";
  TStart "path" [mkAttr "style" "fill:#FFEDB9;"; mkAttr "d" "M75.363,141.34c-0.188-0.058-0.378-0.114-0.566-0.172C74.985,141.226,75.175,141.282,75.363,141.34z   "];
  TEnd "path";
  TChar "
	";
  TStart "path" [mkAttr "style" "fill:#FFEDB9;"; mkAttr "d" "M35.35,125.766c-0.399-0.199-0.8-0.398-1.193-0.598C34.551,125.368,34.951,125.566,35.35,125.766z"];
  TEnd "path";
  TChar "
	";
  TStart "path" [mkAttr "style" "fill:#FFEDB9;"; mkAttr "d" "M37.808,110.774c0.377-0.59,0.751-1.182,1.134-1.769c2.653-4.079,5.404-8.089,8.301-11.987   c0.011-0.014,0.02-0.029,0.03-0.043c1.313,0.555,2.65,1.103,4.002,1.646c-1.333-0.536-2.651-1.076-3.946-1.624   c-0.019-0.008-0.038-0.015-0.057-0.023c-6.193,8.331-11.827,17.095-16.916,26.207c0.002-0.003,0.006-0.009,0.006-0.009   C32.718,118.958,35.218,114.833,37.808,110.774z"];
  TEnd "path";
  TChar "
	";
  TStart "path" [mkAttr "style" "fill:#FFEDB9;"; mkAttr "d" "M162.765,158.628c-0.844-0.095-1.688-0.19-2.527-0.288   C161.077,158.438,161.921,158.533,162.765,158.628z"];
  TEnd "path";
  TChar "
	";
  TStart "path" [mkAttr "style" "fill:#FFEDB9;"; mkAttr "d" "M147.449,156.709c-0.798-0.111-1.591-0.225-2.385-0.338   C145.858,156.484,146.651,156.598,147.449,156.709z"];
  TEnd "path";
  TChar "
	";
  TStart "path" [mkAttr "style" "fill:#FFEDB9;"; mkAttr "d" "M169.61,159.364c-0.847-0.086-1.689-0.176-2.532-0.265   C167.921,159.188,168.763,159.278,169.61,159.364z"];
  TEnd "path";
  TChar "
	";
  TStart "path" [mkAttr "style" "fill:#FFEDB9;"; mkAttr "d" "M154.975,157.702c-0.619-0.078-1.24-0.155-1.856-0.234   C153.736,157.547,154.356,157.624,154.975,157.702z"];
  TEnd "path";
  TChar "
	";
  TStart "path" [mkAttr "style" "fill:#FFEDB9;"; mkAttr "d" "M105.269,114.882c-0.309-0.069-0.617-0.138-0.925-0.207   C104.652,114.744,104.96,114.813,105.269,114.882z"];
  TEnd "path";
  TChar "
	";
  TStart "path" [mkAttr "style" "fill:#FFEDB9;"; mkAttr "d" "M64.269,103.454c-0.984-0.339-1.965-0.68-2.932-1.025C62.304,102.774,63.285,103.115,64.269,103.454   z"];
  TEnd "path";
  TChar "
	";
  TStart "path" [mkAttr "style" "fill:#FFEDB9;"; mkAttr "d" "M70.024,105.382c-1.443-0.467-2.87-0.939-4.28-1.417C67.155,104.443,68.581,104.916,70.024,105.382z   "];
  TEnd "path";
  TChar "
	";
  TStart "path" [mkAttr "style" "fill:#FFEDB9;"; mkAttr "d" "M59.684,101.831c-0.907-0.33-1.808-0.662-2.7-0.996C57.875,101.169,58.776,101.501,59.684,101.831z"];
  TEnd "path";
  TChar "
	";
  TStart "path" [mkAttr "style" "fill:#FFEDB9;"; mkAttr "d" "M87.969,110.653c-0.48-0.128-0.965-0.254-1.442-0.384C87.004,110.399,87.489,110.525,87.969,110.653   z"];
  TEnd "path";
  TChar "
	";
  TStart "path" [mkAttr "style" "fill:#FFEDB9;"; mkAttr "d" "M55.398,100.235c-0.95-0.363-1.888-0.73-2.82-1.099C53.51,99.505,54.448,99.872,55.398,100.235z"];
  TEnd "path";
  TChar "
	";
  TStart "path" [mkAttr "style" "fill:#FFEDB9;"; mkAttr "d" "M100.472,113.786c-0.345-0.081-0.688-0.163-1.032-0.245   C99.785,113.623,100.127,113.705,100.472,113.786z"];
  TEnd "path";
  TChar "
	";
  TStart "path" [mkAttr "style" "fill:#FFEDB9;"; mkAttr "d" "M74.54,106.804c-0.891-0.274-1.771-0.553-2.65-0.832C72.769,106.251,73.649,106.53,74.54,106.804z"];
  TEnd "path";
  TChar "
	";
  TStart "path" [mkAttr "style" "fill:#FFEDB9;"; mkAttr "d" "M79.125,108.179c-0.761-0.223-1.518-0.448-2.271-0.675   C77.607,107.731,78.363,107.956,79.125,108.179z"];
  TEnd "path";
  TChar "
	";
  TStart "path" [mkAttr "style" "fill:#FFEDB9;"; mkAttr "d" "M83.724,109.494c-0.686-0.192-1.373-0.383-2.053-0.577   C82.352,109.111,83.038,109.303,83.724,109.494z"];
  TEnd "path";
  TChar "
	";
  TStart "path" [mkAttr "style" "fill:#FFEDB9;"; mkAttr "d" "M109.524,115.811c-0.016-0.003-0.031-0.007-0.047-0.01   C109.493,115.804,109.508,115.808,109.524,115.811z"];
  TEnd "path";
  TChar "
	";
  TStart "path" [mkAttr "style" "fill:#D55A00;"; mkAttr "d" "M182.526,6.972c-6.301,1.557-12.501,3.365-18.594,5.41c-1.021,0.343-2.039,0.693-3.054,1.049   c-18.194,6.381-35.393,14.884-51.298,25.214C147.508,46.728,192.138,51.428,240,51.428c34.718,0,67.717-2.484,97.709-6.927   c5.13-0.76,10.171-1.578,15.118-2.45c6.035-1.065,11.946-2.201,17.686-3.426c-4.645-3.017-9.402-5.878-14.26-8.576   c-0.11-0.061-0.22-0.122-0.33-0.183c-0.963-0.533-1.932-1.056-2.903-1.576c-0.406-0.218-0.813-0.435-1.221-0.65   c-0.578-0.305-1.158-0.604-1.739-0.905c-0.796-0.412-1.594-0.822-2.396-1.225c-0.112-0.056-0.224-0.111-0.336-0.167   c-23.476-11.774-49.139-19.825-76.231-23.34c-0.002,0-0.003,0-0.005-0.001c-0.03-0.004-0.06-0.007-0.09-0.011   c-1.339-0.173-2.683-0.334-4.03-0.485c-0.262-0.029-0.525-0.056-0.787-0.085c-1.12-0.122-2.242-0.236-3.367-0.343   c-0.385-0.036-0.769-0.071-1.154-0.105c-1.007-0.09-2.016-0.174-3.026-0.252c-0.171-0.013-0.341-0.03-0.512-0.042   c-0.287-0.021-0.576-0.04-0.864-0.06c-0.949-0.068-1.9-0.128-2.852-0.184c-0.496-0.029-0.992-0.06-1.489-0.086   c-0.937-0.05-1.876-0.091-2.816-0.13c-0.499-0.021-0.998-0.044-1.498-0.062c-0.989-0.035-1.981-0.06-2.973-0.083   c-0.034-0.001-0.067-0.002-0.101-0.003c-0.411-0.01-0.821-0.023-1.232-0.031C242.869,0.014,241.436,0,240,0   c-1.21,0-2.417,0.016-3.623,0.033c-0.198,0.003-0.397,0.002-0.596,0.006c-0.415,0.007-0.828,0.02-1.242,0.029   c-1.005,0.022-2.01,0.049-3.012,0.083c-0.447,0.016-0.893,0.035-1.339,0.053c-1.036,0.042-2.07,0.088-3.102,0.144   c-0.356,0.019-0.713,0.039-1.069,0.059c-1.151,0.067-2.301,0.141-3.448,0.224c-0.193,0.014-0.386,0.026-0.578,0.04   C208.49,1.679,195.306,3.814,182.526,6.972z"];
  TEnd "path";
  TChar "
	";
  TStart "path" [mkAttr "style" "fill:#FF9300;"; mkAttr "d" "M281.748,221.653l8.622,12.716c4.296,6.336-1.208,14.604-8.744,13.254   c-28.186-5.048-58.019-24.37-103.657-27.463l0.002,0.007c-8.749-0.775-17.3-1.718-25.646-2.803   c-4.863,18.025-7.721,36.873-8.234,56.311c0.021,0.003,0.042,0.006,0.063,0.009c0,0.008,0,0.016-0.001,0.024   c29.732,3.964,62.044,6.14,95.845,6.14c105.42,0,196.406-21.144,239.553-51.787C479.75,232.029,480,235.983,480,240   c0-1.846-0.028-3.686-0.07-5.522c-0.013-0.577-0.031-1.153-0.049-1.729c-0.039-1.298-0.088-2.593-0.148-3.885   c-0.029-0.623-0.054-1.247-0.088-1.868c-0.089-1.661-0.192-3.319-0.315-4.972c-0.058-0.77-0.127-1.536-0.192-2.303   c-0.084-0.997-0.169-1.994-0.265-2.987c-0.095-0.978-0.196-1.955-0.302-2.93c-0.073-0.669-0.151-1.336-0.229-2.003   c-1.691-14.366-4.645-28.346-8.751-41.824C437.351,196.75,366.957,216.684,281.748,221.653z"];
  TEnd "path";
  TChar "
	";
  TStart "path" [mkAttr "style" "fill:#FF9300;"; mkAttr "d" "M0.606,223.781c0.087-1.299,0.188-2.593,0.296-3.886c0.438-5.25,0.986-10.468,1.757-15.616   c0.007-0.051,0.012-0.103,0.02-0.153c0.822-5.459,1.864-10.844,3.047-16.177c0.184-0.833,0.382-1.661,0.575-2.49   c1.218-5.225,2.561-10.404,4.111-15.493c26.222,21.782,77.701,39.023,141.864,47.378c5.479-20.31,13.557-39.549,23.856-57.346   c-0.215-0.02-0.426-0.042-0.641-0.062c-1.97-0.182-3.93-0.373-5.88-0.572c-0.847-0.086-1.689-0.176-2.532-0.265   c-1.443-0.153-2.881-0.309-4.313-0.471c-0.844-0.095-1.688-0.189-2.527-0.288c-1.764-0.206-3.517-0.419-5.263-0.639   c-0.619-0.078-1.239-0.155-1.856-0.234c-1.902-0.245-3.791-0.498-5.67-0.758c-0.798-0.111-1.591-0.225-2.385-0.338   c-1.399-0.2-2.791-0.403-4.177-0.612c-0.793-0.119-1.587-0.238-2.375-0.36c-1.722-0.266-3.433-0.539-5.134-0.819   c-0.541-0.089-1.083-0.177-1.622-0.267c-1.835-0.307-3.655-0.622-5.465-0.944c-0.743-0.132-1.48-0.268-2.219-0.402   c-1.353-0.247-2.699-0.497-4.037-0.752c-0.729-0.139-1.46-0.277-2.185-0.419c-1.694-0.331-3.376-0.667-5.046-1.011   c-0.419-0.086-0.839-0.172-1.256-0.259c-1.787-0.373-3.556-0.755-5.313-1.142c-0.67-0.148-1.334-0.299-2-0.449   c-1.311-0.295-2.612-0.595-3.906-0.899c-0.66-0.155-1.322-0.31-1.978-0.467c-1.655-0.397-3.297-0.8-4.922-1.21   c-0.302-0.076-0.605-0.151-0.906-0.228c-1.719-0.438-3.418-0.885-5.103-1.338c-0.604-0.163-1.202-0.328-1.802-0.492   c-1.253-0.343-2.496-0.69-3.729-1.042c-0.587-0.167-1.176-0.334-1.758-0.503c-1.605-0.466-3.197-0.938-4.767-1.417   c-0.188-0.058-0.378-0.114-0.566-0.172c-1.639-0.503-3.253-1.016-4.853-1.534c-0.536-0.174-1.065-0.349-1.596-0.524   c-1.182-0.39-2.353-0.783-3.513-1.181c-0.519-0.178-1.04-0.355-1.555-0.535c-1.525-0.532-3.035-1.069-4.519-1.615   c-0.105-0.039-0.212-0.077-0.317-0.115c-1.529-0.564-3.029-1.137-4.513-1.715c-0.474-0.184-0.94-0.371-1.41-0.557   c-1.09-0.432-2.168-0.868-3.233-1.307c-0.457-0.189-0.917-0.377-1.369-0.567c-1.411-0.592-2.805-1.189-4.17-1.794   c-0.061-0.027-0.123-0.054-0.183-0.081c-1.385-0.615-2.738-1.239-4.075-1.868c-0.415-0.195-0.823-0.392-1.234-0.589   c-0.983-0.47-1.952-0.944-2.908-1.422c-0.399-0.199-0.8-0.398-1.193-0.598c-1.266-0.644-2.514-1.292-3.73-1.948   c-0.023-0.012-0.047-0.024-0.07-0.036v0l0,0c0,0,0,0,0,0c5.088-9.112,10.723-17.877,16.916-26.207   c0.019,0.008,0.038,0.016,0.057,0.023c0.954-1.278,1.906-2.558,2.883-3.818c0.372-0.479,0.75-0.954,1.124-1.43   c2.528-3.212,5.134-6.359,7.819-9.437c0.346-0.396,0.685-0.798,1.033-1.192c9.11-10.306,19.098-19.814,29.835-28.428   c0.62-0.497,1.249-0.981,1.874-1.472c2.957-2.324,5.971-4.577,9.037-6.763c0.718-0.512,1.432-1.029,2.156-1.533   c3.379-2.353,6.817-4.626,10.32-6.807c0.314-0.196,0.62-0.405,0.935-0.599c3.971-2.447,8.018-4.786,12.138-7.004   c0.172-0.093,0.352-0.176,0.524-0.268c3.718-1.989,7.504-3.867,11.336-5.663c1.039-0.486,2.091-0.946,3.137-1.418   c3.06-1.381,6.153-2.699,9.279-3.954c1.219-0.489,2.438-0.976,3.667-1.445c2.133-0.815,4.287-1.584,6.45-2.336   c1.015-0.356,2.033-0.707,3.054-1.049c0.099-0.033,0.198-0.069,0.297-0.102c1.013-0.337,2.013-0.702,3.032-1.026   c4.337-1.378,8.719-2.656,13.159-3.791c0.359-0.092,0.727-0.16,1.086-0.25c0.338-0.085,0.681-0.157,1.021-0.241   c12.78-3.158,25.964-5.293,39.464-6.301c-0.231,0.017-0.463,0.032-0.694,0.05c-1.748,0.135-3.489,0.292-5.225,0.464   c-0.43,0.042-0.859,0.087-1.288,0.132c-1.731,0.181-3.458,0.375-5.178,0.592c-0.246,0.031-0.49,0.066-0.735,0.098   c-1.537,0.199-3.069,0.415-4.597,0.643c-0.446,0.067-0.893,0.132-1.338,0.201c-1.63,0.253-3.254,0.522-4.873,0.807   c-0.485,0.085-0.968,0.176-1.452,0.264c-1.374,0.251-2.745,0.513-4.111,0.787c-0.382,0.077-0.766,0.149-1.147,0.227   c-1.552,0.32-3.097,0.66-4.638,1.01c-0.59,0.134-1.179,0.269-1.767,0.407c-1.488,0.349-2.971,0.708-4.448,1.085   c-0.573,0.146-1.143,0.301-1.714,0.451c-1.071,0.282-2.138,0.571-3.203,0.867c-0.65,0.181-1.302,0.359-1.95,0.546   c-1.359,0.39-2.712,0.794-4.061,1.208c-0.746,0.229-1.49,0.464-2.232,0.699c-0.878,0.279-1.754,0.564-2.628,0.853   c-1.181,0.39-2.357,0.789-3.53,1.197c-0.752,0.261-1.503,0.524-2.251,0.793c-0.862,0.309-1.722,0.621-2.579,0.94   c-0.653,0.243-1.303,0.494-1.954,0.742c-1.446,0.552-2.885,1.117-4.317,1.696c-0.466,0.189-0.932,0.379-1.396,0.571   c-1.93,0.795-3.848,1.613-5.753,2.456c-0.07,0.031-0.141,0.061-0.212,0.093c-1.069,0.475-2.134,0.958-3.195,1.448   c-0.087,0.04-0.174,0.082-0.261,0.122c-2.103,0.974-4.189,1.978-6.258,3.01c-0.024,0.012-0.048,0.024-0.072,0.036   C62.125,60.524,11.255,129.844,1.659,211.791c-0.079,0.671-0.157,1.342-0.23,2.015c-0.105,0.973-0.208,1.946-0.302,2.923   c-0.096,0.998-0.182,1.999-0.266,3c-0.064,0.763-0.134,1.524-0.191,2.288c-0.123,1.654-0.226,3.314-0.315,4.977   c-0.033,0.622-0.059,1.246-0.088,1.869c-0.06,1.292-0.109,2.587-0.147,3.885c-0.017,0.576-0.036,1.151-0.049,1.729   C0.028,236.313,0,238.153,0,240C0,234.543,0.246,229.146,0.606,223.781z"];
  TEnd "path";
  TChar "
	";
  TStart "path" [mkAttr "style" "fill:#FF7400;"; mkAttr "d" "M240,279.848c-33.801,0-66.114-2.177-95.845-6.14C144.1,275.804,144,277.89,144,280   c0,13.463,1.22,26.629,3.352,39.488c-61.537-8.544-110.926-25.295-136.581-46.354c25.634,21.069,74.95,37.861,136.478,46.406   c28.657,3.98,59.956,6.175,92.75,6.175c113.366,0,208.937-26.179,238.82-61.955c0.769-7.818,1.18-15.74,1.18-23.759   c0-4.017-0.25-7.971-0.446-11.939C436.406,258.703,345.42,279.848,240,279.848z"];
  TEnd "path";
  TChar "
	";
  TStart "path" [mkAttr "style" "fill:#FF7400;"; mkAttr "d" "M1.18,263.76c-0.006-0.063-0.009-0.126-0.015-0.189c-0.375-3.842-0.667-7.708-0.863-11.601   C0.108,248.004,0,244.015,0,240C0,248.019,0.411,255.942,1.18,263.76C1.18,263.759,1.18,263.759,1.18,263.76z"];
  TEnd "path";
  TChar "
	";
  TStart "path" [mkAttr "style" "fill:#FF7400;"; mkAttr "d" "M3.047,265.878c-0.644-0.702-1.271-1.406-1.864-2.115C1.776,264.472,2.404,265.177,3.047,265.878z"];
  TEnd "path";
  TChar "
	";
  TStart "path" [mkAttr "style" "fill:#FF7400;"; mkAttr "d" "M7.901,270.668c-0.782-0.703-1.54-1.41-2.269-2.122C6.361,269.258,7.119,269.965,7.901,270.668z"];
  TEnd "path";
  TChar "
	";
  TStart "path" [mkAttr "style" "fill:#FF7400;"; mkAttr "d" "M5.322,268.236c-0.604-0.597-1.188-1.198-1.755-1.801C4.133,267.038,4.718,267.639,5.322,268.236z"];
  TEnd "path";
  TChar "
	";
  TStart "path" [mkAttr "style" "fill:#FF7400;"; mkAttr "d" "M10.502,272.909c-0.771-0.638-1.519-1.281-2.247-1.927C8.982,271.628,9.731,272.27,10.502,272.909z"];
  TEnd "path";
  TChar "
	";
  TStart "path" [mkAttr "style" "fill:#FFEDB9;"; mkAttr "d" "M436.04,378.364c15.314-21.657,27.117-45.949,34.614-72.081   c-23.084,19.768-66.904,35.888-122.187,45.147l-31.322,4.361C292.859,358.523,266.929,360,240,360   c-29.495,0-57.79-1.772-84.039-5.023c3.923,11.931,8.84,23.4,14.502,34.423c-4.285-2.085-8.517-4.161-12.69-6.152   c4.122,1.967,8.303,4.018,12.534,6.077c22.102,10.756,45.617,21.739,69.693,22.104C319.685,412.636,390.552,398.475,436.04,378.364   z"];
  TEnd "path";
  TChar "
	";
  TStart "path" [mkAttr "style" "fill:#FFEDB9;"; mkAttr "d" "M143.784,376.911c-0.359-0.151-0.717-0.299-1.074-0.447   C143.067,376.612,143.425,376.76,143.784,376.911z"];
  TEnd "path";
  TChar "
	";
  TStart "path" [mkAttr "style" "fill:#FFEDB9;"; mkAttr "d" "M141.881,376.124c-0.346-0.141-0.691-0.28-1.036-0.418   C141.19,375.844,141.535,375.982,141.881,376.124z"];
  TEnd "path";
  TChar "
	";
  TStart "path" [mkAttr "style" "fill:#FFEDB9;"; mkAttr "d" "M138.122,374.641c-0.328-0.125-0.654-0.246-0.981-0.368   C137.468,374.395,137.794,374.516,138.122,374.641z"];
  TEnd "path";
  TChar "
	";
  TStart "path" [mkAttr "style" "fill:#FFEDB9;"; mkAttr "d" "M145.699,377.726c-0.375-0.162-0.75-0.321-1.124-0.48   C144.949,377.404,145.323,377.564,145.699,377.726z"];
  TEnd "path";
  TChar "
	";
  TStart "path" [mkAttr "style" "fill:#FFEDB9;"; mkAttr "d" "M139.997,375.367c-0.337-0.133-0.673-0.263-1.008-0.393   C139.325,375.105,139.66,375.235,139.997,375.367z"];
  TEnd "path";
  TChar "
	";
  TStart "path" [mkAttr "style" "fill:#FFEDB9;"; mkAttr "d" "M147.626,378.566c-0.392-0.173-0.784-0.344-1.175-0.514   C146.843,378.222,147.234,378.393,147.626,378.566z"];
  TEnd "path";
  TChar "
	";
  TStart "path" [mkAttr "style" "fill:#FFEDB9;"; mkAttr "d" "M151.527,380.321c-0.432-0.198-0.863-0.394-1.294-0.589   C150.664,379.927,151.095,380.123,151.527,380.321z"];
  TEnd "path";
  TChar "
	";
  TStart "path" [mkAttr "style" "fill:#FFEDB9;"; mkAttr "d" "M149.564,379.43c-0.41-0.185-0.819-0.367-1.228-0.549   C148.745,379.063,149.154,379.245,149.564,379.43z"];
  TEnd "path";
  TChar "
	";
  TStart "path" [mkAttr "style" "fill:#FFEDB9;"; mkAttr "d" "M125.339,370.555c-0.303-0.075-0.604-0.144-0.906-0.216   C124.735,370.411,125.036,370.48,125.339,370.555z"];
  TEnd "path";
  TChar "
	";
  TStart "path" [mkAttr "style" "fill:#FFEDB9;"; mkAttr "d" "M123.559,370.134c-0.306-0.069-0.61-0.131-0.915-0.195   C122.949,370.003,123.253,370.065,123.559,370.134z"];
  TEnd "path";
  TChar "
	";
  TStart "path" [mkAttr "style" "fill:#FFEDB9;"; mkAttr "d" "M127.126,371.019c-0.299-0.081-0.596-0.156-0.893-0.234   C126.531,370.863,126.828,370.939,127.126,371.019z"];
  TEnd "path";
  TChar "
	";
  TStart "path" [mkAttr "style" "fill:#FFEDB9;"; mkAttr "d" "M153.525,381.244c-0.472-0.22-0.943-0.437-1.413-0.654   C152.582,380.807,153.053,381.024,153.525,381.244z"];
  TEnd "path";
  TChar "
	";
  TStart "path" [mkAttr "style" "fill:#FFEDB9;"; mkAttr "d" "M128.932,371.528c-0.301-0.088-0.6-0.171-0.899-0.255   C128.332,371.357,128.632,371.44,128.932,371.528z"];
  TEnd "path";
  TChar "
	";
  TStart "path" [mkAttr "style" "fill:#FFEDB9;"; mkAttr "d" "M134.409,373.287c-0.313-0.109-0.624-0.214-0.936-0.32   C133.785,373.073,134.097,373.178,134.409,373.287z"];
  TEnd "path";
  TChar "
	";
  TStart "path" [mkAttr "style" "fill:#FFEDB9;"; mkAttr "d" "M136.261,373.947c-0.32-0.117-0.64-0.23-0.959-0.344   C135.621,373.717,135.941,373.83,136.261,373.947z"];
  TEnd "path";
  TChar "
	";
  TStart "path" [mkAttr "style" "fill:#FFEDB9;"; mkAttr "d" "M130.747,372.076c-0.307-0.096-0.612-0.187-0.918-0.279   C130.135,371.889,130.441,371.98,130.747,372.076z"];
  TEnd "path";
  TChar "
	";
  TStart "path" [mkAttr "style" "fill:#FFEDB9;"; mkAttr "d" "M132.573,372.663c-0.31-0.103-0.619-0.201-0.928-0.3   C131.954,372.462,132.262,372.56,132.573,372.663z"];
  TEnd "path";
  TChar "
	";
  TStart "path" [mkAttr "style" "fill:#FFEDB9;"; mkAttr "d" "M105.773,371.005c1.1-1.553,2.891-2.488,5.655-2.434c0.565,0.011,1.132,0.032,1.7,0.063   c-0.569-0.03-1.135-0.052-1.7-0.063C108.665,368.517,106.874,369.452,105.773,371.005z"];
  TEnd "path";
  TChar "
	";
  TStart "path" [mkAttr "style" "fill:#FFEDB9;"; mkAttr "d" "M105.971,386.486c0.271,0.94,0.56,1.865,0.858,2.761   C106.531,388.351,106.241,387.426,105.971,386.486z"];
  TEnd "path";
  TChar "
	";
  TStart "path" [mkAttr "style" "fill:#FFEDB9;"; mkAttr "d" "M14.426,310.336c0.084,0.062,0.165,0.125,0.249,0.187C14.591,310.461,14.51,310.398,14.426,310.336z   "];
  TEnd "path";
  TChar "
	";
  TStart "path" [mkAttr "style" "fill:#FFEDB9;"; mkAttr "d" "M17.344,312.428c0.121,0.084,0.244,0.167,0.366,0.25C17.589,312.595,17.465,312.512,17.344,312.428z   "];
  TEnd "path";
  TChar "
	";
  TStart "path" [mkAttr "style" "fill:#FFEDB9;"; mkAttr "d" "M110.351,398.177c0.149,0.325,0.257,0.554,0.312,0.67   C110.608,398.731,110.5,398.502,110.351,398.177z"];
  TEnd "path";
  TChar "
	";
  TStart "path" [mkAttr "style" "fill:#FFEDB9;"; mkAttr "d" "M11.648,308.195c0.192,0.153,0.386,0.306,0.58,0.459C12.034,308.501,11.84,308.348,11.648,308.195z"];
  TEnd "path";
  TChar "
	";
  TStart "path" [mkAttr "style" "fill:#FFEDB9;"; mkAttr "d" "M9.352,306.304L9.352,306.304c7.501,26.137,19.309,50.433,34.63,72.092   c11.966,5.287,25.682,10.078,40.849,14.271c-15.167-4.193-28.883-8.985-40.849-14.272C28.662,356.737,16.853,332.441,9.352,306.304   z"];
  TEnd "path";
  TChar "
	";
  TStart "path" [mkAttr "style" "fill:#FFEDB9;"; mkAttr "d" "M20.401,314.475c0.046,0.03,0.09,0.059,0.135,0.089C20.491,314.534,20.446,314.505,20.401,314.475z"];
  TEnd "path";
  TChar "
	";
  TStart "path" [mkAttr "style" "fill:#FFEDB9;"; mkAttr "d" "M121.793,369.76c-0.311-0.062-0.62-0.117-0.93-0.175   C121.173,369.642,121.482,369.698,121.793,369.76z"];
  TEnd "path";
  TChar "
	";
  TStart "path" [mkAttr "style" "fill:#FFEDB9;"; mkAttr "d" "M105.298,383.921c0.204,0.859,0.429,1.718,0.673,2.565   C105.727,385.639,105.502,384.781,105.298,383.921z"];
  TEnd "path";
  TChar "
	";
  TStart "path" [mkAttr "style" "fill:#FFEDB9;"; mkAttr "d" "M155.529,382.183c-0.514-0.243-1.028-0.483-1.54-0.722   C154.502,381.7,155.015,381.94,155.529,382.183z"];
  TEnd "path";
  TChar "
	";
  TStart "path" [mkAttr "style" "fill:#FFEDB9;"; mkAttr "d" "M120.036,369.432c-0.316-0.055-0.631-0.102-0.946-0.152   C119.405,369.33,119.719,369.377,120.036,369.432z"];
  TEnd "path";
  TChar "
	";
  TStart "path" [mkAttr "style" "fill:#FFEDB9;"; mkAttr "d" "M157.56,383.146c-0.559-0.266-1.116-0.531-1.673-0.794   C156.444,382.615,157.001,382.879,157.56,383.146z"];
  TEnd "path";
  TChar "
	";
  TStart "path" [mkAttr "style" "fill:#FFEDB9;"; mkAttr "d" "M118.292,369.154c-0.325-0.047-0.647-0.086-0.971-0.128   C117.644,369.067,117.967,369.106,118.292,369.154z"];
  TEnd "path";
  TChar "
	";
  TStart "path" [mkAttr "style" "fill:#FFEDB9;"; mkAttr "d" "M116.557,368.927c-0.355-0.041-0.708-0.073-1.061-0.108   C115.85,368.853,116.202,368.885,116.557,368.927z"];
  TEnd "path";
  TChar "
	";
  TStart "path" [mkAttr "style" "fill:#FFEDB9;"; mkAttr "d" "M105.353,371.695c-0.272,0.517-0.491,1.079-0.65,1.692   C104.861,372.775,105.081,372.212,105.353,371.695z"];
  TEnd "path";
  TChar "
	";
  TStart "path" [mkAttr "style" "fill:#FFEDB9;"; mkAttr "d" "M114.84,368.753c-0.413-0.035-0.824-0.061-1.235-0.086   C114.015,368.692,114.426,368.718,114.84,368.753z"];
  TEnd "path";
  TChar "
	";
  TStart "path" [mkAttr "style" "fill:#FF7400;"; mkAttr "d" "M251.461,479.721c0.769-0.036,1.536-0.08,2.303-0.123c1.125-0.064,2.249-0.134,3.37-0.214   c0.822-0.058,1.643-0.118,2.463-0.185c1.054-0.085,2.104-0.181,3.154-0.28c0.858-0.081,1.716-0.158,2.571-0.248   c0.982-0.103,1.959-0.221,2.938-0.336c3.862-0.454,7.696-0.997,11.499-1.633c0.501-0.084,1.004-0.162,1.505-0.249   c1.298-0.225,2.59-0.466,3.881-0.712c0.43-0.082,0.861-0.163,1.291-0.247c1.375-0.27,2.747-0.551,4.114-0.845   c0.26-0.056,0.52-0.113,0.779-0.17c35.915-7.845,68.818-23.743,96.751-45.683c-41.374,10.607-92.563,16.917-148.079,16.917   c-10.172,0-20.197-0.214-30.044-0.625c12.254,12.911,25.871,24.517,40.716,34.455C247.115,479.701,243.596,480,240,480   c1.922,0,3.837-0.028,5.748-0.073c0.644-0.015,1.285-0.042,1.928-0.062C248.94,479.825,250.202,479.781,251.461,479.721z"];
  TEnd "path";
  TChar "
	";
  TStart "path" [mkAttr "style" "fill:#FF7400;"; mkAttr "d" "M221.198,479.197c-1.052-0.082-2.109-0.145-3.157-0.24c-5.991-0.545-11.918-1.312-17.773-2.291   c-0.97-0.162-1.932-0.344-2.897-0.518c-12.471-2.243-24.615-5.417-36.335-9.509c-0.373-0.129-0.751-0.248-1.123-0.38   c-5.923-2.101-11.737-4.433-17.437-6.976c-0.362-0.161-0.722-0.327-1.083-0.49c-11-4.974-21.563-10.748-31.61-17.249   c23.747,15.386,50.369,26.706,78.897,32.937c0.254,0.055,0.507,0.111,0.762,0.166c1.372,0.295,2.748,0.577,4.128,0.848   c0.424,0.083,0.848,0.163,1.273,0.244c1.295,0.247,2.593,0.488,3.895,0.715c0.495,0.086,0.993,0.164,1.489,0.247   c3.813,0.638,7.656,1.181,11.527,1.636c0.972,0.114,1.943,0.231,2.918,0.334c0.859,0.09,1.721,0.168,2.583,0.249   c1.046,0.099,2.093,0.194,3.143,0.279c0.821,0.066,1.644,0.127,2.468,0.185c1.121,0.079,2.244,0.15,3.369,0.214   c0.767,0.043,1.534,0.087,2.303,0.123c1.259,0.059,2.521,0.104,3.785,0.144c0.643,0.02,1.284,0.047,1.928,0.062   c1.911,0.045,3.826,0.073,5.749,0.073C233.665,480,227.408,479.679,221.198,479.197z"];
  TEnd "path";
  TChar "
	";
  TStart "path" [mkAttr "style" "fill:#FF7400;"; mkAttr "d" "M98.697,430.47c-0.304-0.073-0.606-0.146-0.91-0.219C98.091,430.324,98.393,430.397,98.697,430.47z"];
  TEnd "path";
  TChar "
	";
  TStart "path" [mkAttr "style" "fill:#FF7400;"; mkAttr "d" "M104.895,431.905c-0.007-0.001-0.013-0.003-0.02-0.004   C104.882,431.902,104.889,431.904,104.895,431.905z"];
  TEnd "path";
  TChar "
	";
  TStart "polygon" [mkAttr "style" "fill:#FF7400;"; mkAttr "points" "91.92,428.796 91.924,428.797 91.92,428.796  "];
  TEnd "polygon";
  TChar "
	";
  TStart "path" [mkAttr "style" "fill:#FF7400;"; mkAttr "d" "M98.265,433.599c3.612,2.65,7.3,5.2,11.061,7.649C105.563,438.801,101.877,436.247,98.265,433.599z"];
  TEnd "path";
  TChar "
	";
  TStart "path" [mkAttr "style" "fill:#FF7400;"; mkAttr "d" "M91.926,428.801c1.697,1.333,3.418,2.635,5.151,3.922C95.344,431.436,93.623,430.133,91.926,428.801   z"];
  TEnd "path";
  TChar "
	";
  TStart "path" [mkAttr "style" "fill:#FF7400;"; mkAttr "d" "M144.092,273.674c0.513-19.438,3.371-38.285,8.234-56.311c0.001-0.004,0.002-0.008,0.003-0.012   c-0.018-0.002-0.036-0.005-0.053-0.007c-64.163-8.355-115.642-25.597-141.864-47.378c-1.55,5.089-2.893,10.267-4.111,15.493   c-0.193,0.83-0.391,1.657-0.575,2.49c-1.183,5.333-2.225,10.718-3.047,16.177c-0.007,0.051-0.012,0.103-0.02,0.153   c-0.771,5.148-1.319,10.367-1.757,15.616c-0.107,1.293-0.209,2.587-0.296,3.886C0.246,229.146,0,234.543,0,240   c0-4.017,0.25-7.971,0.447-11.938C29.746,248.868,81.136,265.272,144.092,273.674z"];
  TEnd "path";
  TChar "
	";
  TStart "path" [mkAttr "style" "fill:#D55A00;"; mkAttr "d" "M1.166,263.571c0.006,0.063,0.008,0.126,0.015,0.189v0c0.001,0.001,0.002,0.002,0.003,0.004   c0.593,0.709,1.22,1.413,1.864,2.115c0.171,0.186,0.345,0.371,0.519,0.557c0.567,0.603,1.151,1.204,1.755,1.801   c0.104,0.103,0.204,0.207,0.31,0.311c0.729,0.712,1.487,1.419,2.269,2.122c0.116,0.105,0.237,0.209,0.355,0.313   c0.728,0.646,1.475,1.289,2.247,1.927c0.09,0.075,0.178,0.15,0.27,0.224c25.655,21.06,75.044,37.81,136.581,46.354   C145.22,306.629,144,293.463,144,280c0-2.11,0.1-4.196,0.155-6.292c0-0.008,0-0.016,0.001-0.024   c-0.021-0.003-0.042-0.006-0.063-0.009c-62.955-8.402-114.346-24.806-143.645-45.613C0.25,232.029,0,235.983,0,240   c0,4.015,0.108,8.004,0.303,11.97C0.498,255.862,0.791,259.728,1.166,263.571z"];
  TEnd "path";
  TChar "
	";
  TStart "path" [mkAttr "style" "fill:#FFD042;"; mkAttr "d" "M176.153,160c6.664-11.516,14.278-22.403,22.699-32.604c0.002-0.003,0.004-0.006,0.007-0.008   c-0.01-0.001-0.021-0.001-0.031-0.002c-32.302-1.859-62.495-5.863-89.304-11.574c-0.016-0.003-0.031-0.007-0.047-0.01   c-1.413-0.301-2.814-0.609-4.208-0.919c-0.309-0.069-0.617-0.138-0.925-0.207c-1.299-0.292-2.591-0.588-3.872-0.889   c-0.345-0.081-0.688-0.163-1.032-0.245c-3.907-0.925-7.73-1.889-11.472-2.888c-0.48-0.128-0.965-0.254-1.442-0.384   c-0.942-0.255-1.872-0.515-2.803-0.775c-0.687-0.191-1.372-0.383-2.053-0.577c-0.854-0.244-1.702-0.49-2.547-0.738   c-0.761-0.223-1.517-0.448-2.271-0.675c-0.774-0.232-1.548-0.465-2.314-0.701c-0.891-0.274-1.771-0.553-2.65-0.832   c-0.622-0.197-1.25-0.391-1.865-0.591c-1.443-0.467-2.869-0.939-4.28-1.417c-0.497-0.168-0.983-0.341-1.476-0.51   c-0.984-0.339-1.965-0.68-2.932-1.025c-0.555-0.198-1.103-0.398-1.653-0.598c-0.907-0.33-1.808-0.662-2.7-0.996   c-0.531-0.199-1.06-0.398-1.585-0.599c-0.95-0.363-1.888-0.73-2.82-1.099c-0.434-0.172-0.872-0.342-1.302-0.515   c-1.352-0.543-2.689-1.091-4.002-1.646c-0.011,0.014-0.02,0.029-0.03,0.043c-2.897,3.898-5.648,7.908-8.301,11.987   c-0.383,0.586-0.756,1.179-1.134,1.769c-2.59,4.06-5.09,8.184-7.445,12.399c0,0-0.004,0.006-0.006,0.009c0,0,0,0,0,0l0,0   c0.023,0.012,0.047,0.024,0.07,0.037c1.216,0.656,2.464,1.304,3.73,1.948c0.394,0.2,0.795,0.399,1.193,0.598   c0.956,0.477,1.925,0.951,2.908,1.422c0.411,0.197,0.819,0.394,1.234,0.589c1.337,0.629,2.69,1.252,4.075,1.868   c0.061,0.027,0.123,0.053,0.183,0.081c1.365,0.605,2.759,1.202,4.17,1.794c0.453,0.19,0.912,0.378,1.369,0.567   c1.065,0.439,2.143,0.875,3.233,1.307c0.469,0.186,0.936,0.372,1.41,0.557c1.484,0.578,2.984,1.151,4.513,1.715   c0.105,0.039,0.212,0.077,0.317,0.115c1.485,0.546,2.994,1.083,4.519,1.615c0.515,0.18,1.036,0.357,1.555,0.535   c1.16,0.397,2.331,0.791,3.513,1.181c0.531,0.175,1.06,0.351,1.596,0.524c1.6,0.518,3.214,1.031,4.853,1.534   c0.188,0.058,0.378,0.114,0.566,0.172c1.571,0.479,3.162,0.951,4.767,1.417c0.583,0.169,1.171,0.336,1.758,0.503   c1.233,0.351,2.476,0.698,3.729,1.042c0.6,0.164,1.198,0.329,1.802,0.492c1.685,0.453,3.384,0.9,5.103,1.338   c0.301,0.077,0.604,0.152,0.906,0.228c1.625,0.41,3.267,0.813,4.922,1.21c0.656,0.157,1.317,0.312,1.978,0.467   c1.293,0.304,2.595,0.603,3.906,0.899c0.666,0.15,1.33,0.301,2,0.449c1.757,0.388,3.527,0.77,5.313,1.142   c0.417,0.087,0.838,0.173,1.256,0.259c1.669,0.344,3.352,0.681,5.046,1.011c0.725,0.142,1.456,0.28,2.185,0.419   c1.338,0.255,2.684,0.506,4.037,0.752c0.739,0.135,1.476,0.27,2.219,0.402c1.809,0.322,3.63,0.637,5.465,0.944   c0.539,0.09,1.081,0.178,1.622,0.267c1.701,0.279,3.412,0.552,5.134,0.819c0.789,0.122,1.583,0.24,2.375,0.36   c1.386,0.208,2.778,0.412,4.177,0.612c0.794,0.113,1.587,0.228,2.385,0.338c1.879,0.26,3.768,0.513,5.67,0.758   c0.617,0.079,1.237,0.156,1.856,0.234c1.745,0.219,3.499,0.432,5.263,0.639c0.839,0.098,1.684,0.193,2.527,0.288   c1.432,0.162,2.87,0.318,4.313,0.471c0.843,0.089,1.685,0.179,2.532,0.265c1.95,0.198,3.91,0.389,5.88,0.572   C175.712,159.957,175.931,159.979,176.153,160z"];
  TEnd "path";
  TChar "
	";
  TStart "path" [mkAttr "style" "fill:#D55A00;"; mkAttr "d" "M250.672,479.544c-14.845-9.939-28.462-21.544-40.716-34.455c-0.023-0.025-0.048-0.048-0.071-0.073   c-0.042-0.002-0.083-0.004-0.124-0.006c-38.315-1.614-73.961-6.195-104.865-13.105c-0.007-0.001-0.013-0.003-0.02-0.004   c-2.082-0.466-4.139-0.944-6.178-1.43c-0.304-0.073-0.606-0.146-0.91-0.219c-1.974-0.476-3.932-0.958-5.863-1.453   c-0.001,0-0.003-0.001-0.004-0.001l0,0c0.002,0.001,0.004,0.003,0.006,0.004c1.697,1.333,3.418,2.635,5.151,3.922   c0.395,0.293,0.791,0.585,1.188,0.876c3.613,2.648,7.299,5.203,11.061,7.649c0.153,0.099,0.305,0.198,0.458,0.297   c10.048,6.501,20.61,12.275,31.61,17.249c0.361,0.163,0.72,0.329,1.083,0.49c5.699,2.543,11.513,4.875,17.437,6.976   c0.372,0.132,0.75,0.25,1.123,0.38c11.721,4.092,23.865,7.266,36.335,9.509c0.965,0.173,1.927,0.356,2.897,0.518   c5.855,0.979,11.782,1.745,17.773,2.291c1.048,0.095,2.104,0.158,3.157,0.24C227.408,479.679,233.665,480,240,480   C243.596,480,247.115,479.701,250.672,479.544z"];
  TEnd "path";
  TChar "
	";
  TStart "path" [mkAttr "style" "fill:#FFD042;"; mkAttr "d" "M168,416c0.5-11.5-6.333-18.333-16-24c-12.208-7.156-33.5-12-32,0C121.5,404,167.5,427.5,168,416z"];
  TEnd "path";
  TChar "
	";
  TStart "ellipse" [mkAttr "style" "fill:#FF9300;"; mkAttr "cx" "252"; mkAttr "cy" "216"; mkAttr "rx" "12"; mkAttr "ry" "8"];
  TEnd "ellipse";
  TChar "
";
  TEnd "g";
  TChar "
";
  TStart "g" [];
  TChar "
";
  TEnd "g";
  TChar "
";
  TStart "g" [];
  TChar "
";
  TEnd "g";
  TChar "
";
  TStart "g" [];
  TChar "
";
  TEnd "g";
  TChar "
";
  TStart "g" [];
  TChar "
";
  TEnd "g";
  TChar "
";
  TStart "g" [];
  TChar "
";
  TEnd "g";
  TChar "
";
  TStart "g" [];
  TChar "
";
  TEnd "g";
  TChar "
";
  TStart "g" [];
  TChar "
";
  TEnd "g";
  TChar "
";
  TStart "g" [];
  TChar "
";
  TEnd "g";
  TChar "
";
  TStart "g" [];
  TChar "
";
  TEnd "g";
  TChar "
";
  TStart "g" [];
  TChar "
";
  TEnd "g";
  TChar "
";
  TStart "g" [];
  TChar "
";
  TEnd "g";
  TChar "
";
  TStart "g" [];
  TChar "
";
  TEnd "g";
  TChar "
";
  TStart "g" [];
  TChar "
";
  TEnd "g";
  TChar "
";
  TStart "g" [];
  TChar "
";
  TEnd "g";
  TChar "
";
  TStart "g" [];
  TChar "
";
  TEnd "g";
  TChar "
";
  TEnd "svg"]%string.

(** testdata/testIcons/lander.svg *)
Definition t_lander : list token := [
  TOther;
  TOther;
  TStart "svg" [mkAttr "version" "1.1"; mkAttr "id" "Capa_1"; mkAttr "xmlns" "http://www.w3.org/2000/svg"; mkAttr "xlink" "http://www.w3.org/1999/xlink"; mkAttr "x" "0px"; mkAttr "y" "0px"; mkAttr "viewBox" "0 0 512.002 512.002"; mkAttr "style" "enable-background:new 0 0 512.002 512.002;"; mkAttr "space" "preserve"];
  TChar "
";
  TStart "g" [];
  TChar "
	";
  TStart "path" [mkAttr "style" "fill:none;"; mkAttr "d" "M287.988,268.001c0.003,2.031-0.761,3.998-2.168,5.492c-1.508,1.602-3.617,2.508-5.82,2.508h-8v8h40   v-16H287.988z"];
  TEnd "path";
  TChar "
	";
  TStart "path" [mkAttr "style" "fill:none;"; mkAttr "d" "M232,276.001c-2.203,0-4.313-0.906-5.82-2.508c-1.407-1.494-2.171-3.461-2.168-5.492H200v16h40v-8H232z   "];
  TEnd "path";
  TChar "
	";
  TStart "path" [mkAttr "style" "fill:none;"; mkAttr "d" "M90.797,330.071c-0.212-0.182-0.413-0.373-0.601-0.571l-20.675,41.35l62.751-5.229L90.797,330.071z"];
  TEnd "path";
  TChar "
	";
  TStart "polygon" [mkAttr "style" "fill:none;"; mkAttr "points" "144,354.614 144,310.243 103.922,320.261  "];
  TEnd "polygon";
  TChar "
	";
  TStart "polygon" [mkAttr "style" "fill:none;"; mkAttr "points" "408.08,320.261 368,310.242 368,354.615  "];
  TEnd "polygon";
  TChar "
	";
  TStart "path" [mkAttr "style" "fill:none;"; mkAttr "d" "M421.205,330.071l-41.475,35.55l62.751,5.229l-20.675-41.35   C421.617,329.698,421.417,329.889,421.205,330.071z"];
  TEnd "path";
  TChar "
	";
  TStart "path" [mkAttr "style" "fill:#5C546A;"; mkAttr "d" "M231.914,136.661c0.343-1.604,0.919-3.116,1.7-4.499l-59.349-13.192   c-3.688-0.813-6.266-4.023-6.266-7.805v-4.187c-2.559,0.661-5.237,1.023-8,1.023c-1.8,0-3.565-0.149-5.285-0.436   c-0.92-0.153-1.823-0.357-2.715-0.587v4.187c0,11.336,7.727,20.969,18.797,23.43l44.608,9.915   c4.199-2.853,8.741-5.303,13.595-7.267C229.929,136.862,230.917,136.671,231.914,136.661z"];
  TEnd "path";
  TChar "
	";
  TStart "path" [mkAttr "style" "fill:#5C546A;"; mkAttr "d" "M264,108.001c0-0.454-0.047-0.897-0.119-1.331c-2.469,0.858-5.119,1.331-7.881,1.331   c-2.762,0-5.411-0.472-7.881-1.331c-0.073,0.434-0.119,0.876-0.119,1.331v16h16V108.001z"];
  TEnd "path";
  TChar "
	";
  TStart "rect" [mkAttr "x" "184"; mkAttr "y" "268.001"; mkAttr "style" "fill:#5C546A;"; mkAttr "width" "16"; mkAttr "height" "16"];
  TEnd "rect";
  TChar "
	";
  TStart "rect" [mkAttr "x" "312"; mkAttr "y" "268.001"; mkAttr "style" "fill:#5C546A;"; mkAttr "width" "16"; mkAttr "height" "16"];
  TEnd "rect";
  TChar "
	";
  TStart "polygon" [mkAttr "style" "fill:#FF7400;"; mkAttr "points" "240,276.001 240,284.001 256,284.001 272,284.001 272,276.001  "];
  TEnd "polygon";
  TChar "
	";
  TStart "path" [mkAttr "style" "fill:#FFCF00;"; mkAttr "d" "M224.011,268.001c-0.003,2.031,0.761,3.998,2.168,5.492c1.508,1.602,3.617,2.508,5.82,2.508h8h32h8   c2.203,0,4.313-0.906,5.82-2.508c1.407-1.494,2.171-3.461,2.168-5.492H312h16h48c4.422,0,8-3.578,8-8v-28.469   c0-10.344-6.594-19.492-16.406-22.766l-37.063-12.352c-0.523-0.18-1.055-0.297-1.594-0.359l-1.388-0.163   c0.297,2.668,0.451,5.374,0.451,8.109c0,1.283-0.044,2.56-0.112,3.832l2.738,4.106c3.504,5.256,5.375,11.433,5.375,17.75v38.312   h-48.011c0-0.018,0-0.036,0-0.055c-0.001-0.138,0.005-0.276-0.004-0.414l-7.555-128.469c-0.049-0.829-0.178-1.634-0.348-2.424   c-1.561-7.251-7.998-12.639-15.628-12.639H264h-16h-0.453c-5.951,0-11.175,3.28-13.932,8.161c-0.781,1.383-1.357,2.895-1.7,4.499   c-0.167,0.783-0.295,1.581-0.344,2.403l-7.555,128.469c-0.008,0.138-0.003,0.276-0.004,0.414c-1.011-0.126-1.989-0.442-2.879-0.937   C198.227,254.306,184,230.165,184,204.001c0-7.874,1.27-15.509,3.637-22.689c-0.894,0.581-1.682,1.338-2.293,2.251l-10.625,15.938   c-4.398,6.586-6.719,14.258-6.719,22.188v38.313c0,4.422,3.578,8,8,8h8h16H224.011z M272,259.001c0,0.552-0.448,1-1,1h-30   c-0.552,0-1-0.448-1-1v-54c0-0.552,0.448-1,1-1h30c0.552,0,1,0.448,1,1V259.001z"];
  TEnd "path";
  TChar "
	";
  TStart "path" [mkAttr "style" "fill:#FF9300;"; mkAttr "d" "M290.883,267.001c-0.898,0.502-1.881,0.82-2.895,0.945c0,0.018,0,0.036,0,0.055H336v-38.312   c0-6.317-1.87-12.494-5.375-17.75l-2.738-4.106C326.573,232.496,312.65,254.921,290.883,267.001z"];
  TEnd "path";
  TChar "
	";
  TStart "path" [mkAttr "style" "fill:#FFF2AA;"; mkAttr "d" "M287.984,267.532c0.008,0.138,0.003,0.276,0.004,0.414c1.014-0.126,1.997-0.443,2.895-0.945   c21.768-12.08,35.69-34.504,37.005-59.168c0.068-1.272,0.112-2.549,0.112-3.832c0-2.734-0.153-5.44-0.451-8.109   c-2.91-26.134-19.764-48.649-44.589-58.673c-0.916-0.375-1.896-0.565-2.88-0.58c0.17,0.789,0.299,1.595,0.348,2.424   L287.984,267.532z"];
  TEnd "path";
  TChar "
	";
  TStart "path" [mkAttr "style" "fill:#FF9300;"; mkAttr "d" "M221.133,267.009c0.89,0.495,1.869,0.811,2.879,0.937c0.001-0.138-0.005-0.275,0.004-0.414   l7.555-128.469c0.049-0.822,0.177-1.62,0.344-2.403c-0.997,0.01-1.985,0.202-2.914,0.582c-4.854,1.964-9.396,4.414-13.595,7.267   c-13.136,8.924-22.846,21.866-27.768,36.802c-2.366,7.18-3.637,14.815-3.637,22.689C184,230.165,198.227,254.306,221.133,267.009z"];
  TEnd "path";
  TChar "
	";
  TStart "path" [mkAttr "style" "fill:#FF7400;"; mkAttr "d" "M168,380.001v8c0,8.82,7.18,16,16,16h64v-24H168z"];
  TEnd "path";
  TChar "
	";
  TStart "path" [mkAttr "style" "fill:#FF7400;"; mkAttr "d" "M264,404.001h64c8.82,0,16-7.18,16-16v-8h-80V404.001z"];
  TEnd "path";
  TChar "
	";
  TStart "path" [mkAttr "style" "fill:#B6B8BE;"; mkAttr "d" "M128.34,71.282c0.069-0.478,0.23-0.922,0.464-1.319C128.57,70.361,128.408,70.805,128.34,71.282   c-2.427,16.895,8.438,31.763,23.66,35.695c0.892,0.23,1.795,0.434,2.715,0.587C138.093,104.792,125.771,89.168,128.34,71.282z"];
  TEnd "path";
  TChar "
	";
  TStart "path" [mkAttr "style" "fill:#B6B8BE;"; mkAttr "d" "M160,108.001c2.763,0,5.441-0.362,8-1.023c15.222-3.932,26.087-18.8,23.66-35.695   c-0.274-1.911-2.037-3.281-3.967-3.281H160V108.001z"];
  TEnd "path";
  TChar "
	";
  TStart "path" [mkAttr "style" "fill:#B6B8BE;"; mkAttr "d" "M256,108.001c2.762,0,5.411-0.472,7.881-1.331C273.263,103.409,280,94.494,280,84.001   c0-13.255-10.745-24-24-24V108.001z"];
  TEnd "path";
  TChar "
	";
  TStart "path" [mkAttr "style" "fill:#5C546A;"; mkAttr "d" "M144,372.001v-17.387l-40.078-34.353L144,310.243v-10.242c0-2.356,0.525-4.587,1.444-6.604   l-48.678,12.166c-9.078,2.273-16.68,8.375-20.859,16.734L19.055,436.001h17.891l24.202-48.405l91.141-7.595H152   C147.578,380.001,144,376.423,144,372.001z M90.196,329.5c0.189,0.198,0.389,0.389,0.601,0.571l41.475,35.55l-62.751,5.229   L90.196,329.5z"];
  TEnd "path";
  TChar "
	";
  TStart "path" [mkAttr "style" "fill:#FF9300;"; mkAttr "d" "M8,436.001c-4.422,0-8,3.578-8,8s3.578,8,8,8h40c4.422,0,8-3.578,8-8s-3.578-8-8-8H36.945H19.055H8z   "];
  TEnd "path";
  TChar "
	";
  TStart "path" [mkAttr "style" "fill:#5C546A;"; mkAttr "d" "M436.095,322.298c-4.18-8.359-11.781-14.461-20.859-16.734l-48.681-12.167   c0.919,2.016,1.444,4.248,1.444,6.604v10.241l40.08,10.019L368,354.615v17.386c0,4.422-3.578,8-8,8h-0.287l91.141,7.595   l24.202,48.405h17.891L436.095,322.298z M379.73,365.621l41.475-35.55c0.212-0.182,0.413-0.373,0.601-0.571l20.675,41.35   L379.73,365.621z"];
  TEnd "path";
  TChar "
	";
  TStart "path" [mkAttr "style" "fill:#FF9300;"; mkAttr "d" "M504.002,436.001h-11.055h-17.891h-11.055c-4.422,0-8,3.578-8,8s3.578,8,8,8h40c4.422,0,8-3.578,8-8   S508.424,436.001,504.002,436.001z"];
  TEnd "path";
  TChar "
	";
  TStart "path" [mkAttr "style" "fill:#FF9300;"; mkAttr "d" "M248,292.001c0-4.422,3.578-8,8-8h-16h-40h-16h-24c-6.464,0-12.035,3.864-14.556,9.396   c-0.919,2.016-1.444,4.248-1.444,6.604v10.242v44.371v17.387c0,4.422,3.578,8,8,8h0.289H168h80V292.001z"];
  TEnd "path";
  TChar "
	";
  TStart "path" [mkAttr "style" "fill:#FFCF00;"; mkAttr "d" "M368,372.001v-17.386v-44.373v-10.241c0-2.356-0.525-4.588-1.444-6.604   c-2.521-5.532-8.091-9.396-14.556-9.396h-24h-16h-40h-16c4.422,0,8,3.578,8,8v88h80h15.713H360   C364.422,380.001,368,376.423,368,372.001z"];
  TEnd "path";
  TChar "
	";
  TStart "path" [mkAttr "style" "fill:#5C546A;"; mkAttr "d" "M264,292.001c0-4.422-3.578-8-8-8c-4.422,0-8,3.578-8,8v88v24v32h16v-32v-24V292.001z"];
  TEnd "path";
  TChar "
	";
  TStart "path" [mkAttr "style" "fill:#FF9300;"; mkAttr "d" "M271,204.001h-30c-0.552,0-1,0.448-1,1v54c0,0.552,0.448,1,1,1h30c0.552,0,1-0.448,1-1v-54   C272,204.449,271.552,204.001,271,204.001z"];
  TEnd "path";
  TChar "
	";
  TStart "path" [mkAttr "style" "fill:#888693;"; mkAttr "d" "M256,60.001c-6.627,0-12.627,2.686-16.971,7.029c-1.086,1.086-2.068,2.275-2.931,3.552   c-0.431,0.638-0.833,1.299-1.202,1.979c-0.924,1.7-1.648,3.525-2.141,5.442C232.262,79.92,232,81.93,232,84.001   s0.262,4.081,0.756,5.998c0.493,1.917,1.217,3.742,2.141,5.442c0.369,0.68,0.771,1.34,1.202,1.979   c0.863,1.277,1.845,2.466,2.931,3.552c2.533,2.533,5.633,4.497,9.09,5.699c2.469,0.858,5.119,1.331,7.881,1.331V60.001z"];
  TEnd "path";
  TChar "
	";
  TStart "path" [mkAttr "style" "fill:#888693;"; mkAttr "d" "M154.715,107.565c1.719,0.287,3.485,0.436,5.285,0.436v-40h-27.693h0   c-1.448,0-2.801,0.771-3.503,1.963c-0.234,0.397-0.396,0.841-0.464,1.319C125.771,89.168,138.093,104.792,154.715,107.565z"];
  TEnd "path";
  TChar "
	";
  TStart "path" [mkAttr "style" "fill:#FF9300;"; mkAttr "d" "M232,436.001c-4.422,0-8,3.578-8,8s3.578,8,8,8h48c4.422,0,8-3.578,8-8s-3.578-8-8-8h-16h-16H232z"];
  TEnd "path";
  TChar "
";
  TEnd "g";
  TChar "
";
  TStart "g" [];
  TChar "
";
  TEnd "g";
  TChar "
";
  TStart "g" [];
  TChar "
";
  TEnd "g";
  TChar "
";
  TStart "g" [];
  TChar "
";
  TEnd "g";
  TChar "
";
  TStart "g" [];
  TChar "
";
  TEnd "g";
  TChar "
";
  TStart "g" [];
  TChar "
";
  TEnd "g";
  TChar "
";
  TStart "g" [];
  TChar "
";
  TEnd "g";
  TChar "
";
  TStart "g" [];
  TChar "
";
  TEnd "g";
  TChar "
";
  TStart "g" [];
  TChar "
";
  TEnd "g";
  TChar "
";
  TStart "g" [];
  TChar "
";
  TEnd "g";
  TChar "
";
  TStart "g" [];
  TChar "
";
  TEnd "g";
  TChar "
";
  TStart "g" [];
  TChar "
";
  TEnd "g";
  TChar "
";
  TStart "g" [];
  TChar "
";
  TEnd "g";
  TChar "
";
  TStart "g" [];
  TChar "
";
  TEnd "g";
  TChar "
";
  TStart "g" [];
  TChar "
";
  TEnd "g";
  TChar "
";
  TStart "g" [];
  TChar "
";
  TEnd "g";
  TChar "
";
  TEnd "svg"]%string.

(** testdata/testIcons/school-bus.svg *)
Definition t_school_bus : list token := [
  TOther;
  TOther;
  TStart "svg" [mkAttr "version" "1.1"; mkAttr "id" "Layer_1"; mkAttr "xmlns" "http://www.w3.org/2000/svg"; mkAttr "xlink" "http://www.w3.org/1999/xlink"; mkAttr "x" "0px"; mkAttr "y" "0px"; mkAttr "viewBox" "0 0 512.001 512.001"; mkAttr "style" "enable-background:new 0 0 512.001 512.001;"; mkAttr "space" "preserve"];
  TChar "
";
  TStart "g" [];
  TChar "
	";
  TStart "g" [];
  TChar "
		";
  TStart "g" [];
  TChar "
			";
  TStart "path" [mkAttr "style" "fill:#2D404E;"; mkAttr "d" "M57.089,196.933h-5.446c-7.826,0-7.826-9.588-7.826-12.738V79.553     c0-1.488-0.037-2.941-0.073-4.299c-0.15-5.833-0.24-9.354,2.507-10.49c2.489-1.027,4.684,1.287,5.622,2.28     c4.848,5.118,9.746,9.5,9.794,9.543l-3.319,3.718c-0.199-0.178-4.823-4.314-9.67-9.392c-0.027,1.29,0.013,2.888,0.047,4.213     c0.037,1.398,0.075,2.896,0.075,4.427v104.642c0,7.755,2.064,7.755,2.843,7.755h5.446V196.933L57.089,196.933z"];
  TEnd "path";
  TChar "
		";
  TEnd "g";
  TChar "
		";
  TStart "path" [mkAttr "style" "fill:#2D404E;"; mkAttr "d" "M47.421,171.419c0,3.669-2.975,6.645-6.644,6.645H28.318c-3.669,0-6.644-2.976-6.644-6.645V90.031    c0-3.67,2.975-6.645,6.644-6.645h12.458c3.669,0,6.644,2.975,6.644,6.645L47.421,171.419L47.421,171.419z"];
  TEnd "path";
  TChar "
		";
  TStart "path" [mkAttr "style" "fill:#253744;"; mkAttr "d" "M36.478,172.994c-6.58,0-9.915-5.36-9.915-15.669c0-8.577,0-57.489,0-73.674    c-2.811,0.775-4.887,3.322-4.887,6.38v81.388c0,3.669,2.975,6.645,6.644,6.645h12.458c3.125,0,5.726-2.164,6.436-5.069    C44.157,172.994,40.031,172.994,36.478,172.994z"];
  TEnd "path";
  TChar "
		";
  TStart "polygon" [mkAttr "style" "opacity:0.3;fill:#586A73;enable-background:new    ;"; mkAttr "points" "34.444,89.261 41.021,121.442 41.021,89.261   "];
  TEnd "polygon";
  TChar "
	";
  TEnd "g";
  TChar "
	";
  TStart "g" [];
  TChar "
		";
  TStart "g" [];
  TChar "
			";
  TStart "path" [mkAttr "style" "fill:#2D404E;"; mkAttr "d" "M454.26,196.933h5.447c7.826,0,7.826-9.588,7.826-12.738V79.553c0-1.488,0.037-2.941,0.072-4.299     c0.15-5.833,0.24-9.354-2.507-10.49c-2.489-1.027-4.684,1.287-5.622,2.28c-4.848,5.118-9.745,9.5-9.794,9.543l3.319,3.718     c0.199-0.178,4.822-4.314,9.67-9.392c0.027,1.29-0.014,2.888-0.047,4.213c-0.037,1.398-0.075,2.896-0.075,4.427v104.642     c0,7.755-2.065,7.755-2.843,7.755h-5.447L454.26,196.933L454.26,196.933z"];
  TEnd "path";
  TChar "
		";
  TEnd "g";
  TChar "
		";
  TStart "path" [mkAttr "style" "fill:#2D404E;"; mkAttr "d" "M463.931,171.419c0,3.669,2.975,6.645,6.644,6.645h12.457c3.67,0,6.645-2.976,6.645-6.645V90.031    c0-3.67-2.975-6.645-6.645-6.645h-12.457c-3.669,0-6.644,2.975-6.644,6.645V171.419z"];
  TEnd "path";
  TChar "
		";
  TStart "path" [mkAttr "style" "fill:#253744;"; mkAttr "d" "M474.874,172.994c6.579,0,9.915-5.36,9.915-15.669c0-8.577,0-57.489,0-73.674    c2.811,0.775,4.887,3.322,4.887,6.38v81.388c0,3.669-2.975,6.645-6.645,6.645h-12.457c-3.124,0-5.726-2.164-6.436-5.069    C467.194,172.994,471.32,172.994,474.874,172.994z"];
  TEnd "path";
  TChar "
		";
  TStart "polygon" [mkAttr "style" "opacity:0.3;fill:#586A73;enable-background:new    ;"; mkAttr "points" "476.907,89.261 470.329,121.442 470.329,89.261       "];
  TEnd "polygon";
  TChar "
	";
  TEnd "g";
  TChar "
	";
  TStart "g" [];
  TChar "
		";
  TStart "g" [];
  TChar "
			";
  TStart "path" [mkAttr "style" "fill:#2D404E;"; mkAttr "d" "M477.957,328.462c12.218,0,12.218-14.988,12.218-35.732h-4.983     c0,20.206-0.322,30.749-7.234,30.749c-5.273,0-8.937-1.142-8.973-1.153l-1.506,4.75     C467.657,327.132,471.921,328.462,477.957,328.462z"];
  TEnd "path";
  TChar "
		";
  TEnd "g";
  TChar "
		";
  TStart "path" [mkAttr "style" "fill:#2D404E;"; mkAttr "d" "M475.525,259.341c5.004,0,12.159,0,12.159,0s7.154,0,12.158,0s13.259,5.538,8.301,16.886    c-4.957,11.352-8.832,19.932-20.459,20.209c-11.628-0.277-15.502-8.857-20.46-20.209    C462.266,264.879,470.52,259.341,475.525,259.341z"];
  TEnd "path";
  TChar "
		";
  TStart "path" [mkAttr "style" "fill:#253744;"; mkAttr "d" "M487.683,289.132c11.418,0,18.065-15.327,20.685-24.602c1.566,2.771,1.976,6.658-0.226,11.696    c-4.957,11.352-8.832,19.932-20.459,20.209c-11.628-0.277-15.502-8.857-20.46-20.209c-2.142-4.901-1.812-8.714-0.351-11.468    C469.398,273.646,476.072,289.132,487.683,289.132z"];
  TEnd "path";
  TChar "
		";
  TStart "path" [mkAttr "style" "opacity:0.3;fill:#586A73;enable-background:new    ;"; mkAttr "d" "M500.118,264.53c0,0-6.044,7.59-12.434,8.275    c-6.391,0.687-15.803-8.275-15.803-8.275H500.118z"];
  TEnd "path";
  TChar "
	";
  TEnd "g";
  TChar "
	";
  TStart "path" [mkAttr "style" "fill:#586A73;"; mkAttr "d" "M474.875,430.614c0,3.669-2.975,6.644-6.644,6.644H43.769c-3.669,0-6.644-2.975-6.644-6.644v-45.578   c0-3.67,2.975-6.645,6.644-6.645H468.23c3.669,0,6.644,2.975,6.644,6.645L474.875,430.614L474.875,430.614z"];
  TEnd "path";
  TChar "
	";
  TStart "path" [mkAttr "style" "opacity:0.5;fill:#2D404E;enable-background:new    ;"; mkAttr "d" "M43.771,378.392c-3.669,0-6.644,2.975-6.644,6.645v45.578   c0,3.669,2.975,6.644,6.644,6.644h8.254v-58.866h-8.254C43.771,378.393,43.771,378.392,43.771,378.392z"];
  TEnd "path";
  TChar "
	";
  TStart "path" [mkAttr "style" "opacity:0.5;fill:#2D404E;enable-background:new    ;"; mkAttr "d" "M468.23,378.392c3.669,0,6.644,2.975,6.644,6.645v45.578   c0,3.669-2.975,6.644-6.644,6.644h-8.254v-58.866h8.254V378.392z"];
  TEnd "path";
  TChar "
	";
  TStart "g" [];
  TChar "
		";
  TStart "path" [mkAttr "style" "fill:#2D404E;"; mkAttr "d" "M43.705,378.392c-1.771,0-3.373,0.721-4.553,1.879c77.745,10.246,216.845,12.259,216.845,12.259    l-0.067-14.138H43.705z"];
  TEnd "path";
  TChar "
		";
  TStart "path" [mkAttr "style" "fill:#2D404E;"; mkAttr "d" "M468.29,378.392H256.066l-0.067,14.138c0,0,139.099-2.013,216.844-12.259    C471.663,379.112,470.062,378.392,468.29,378.392z"];
  TEnd "path";
  TChar "
	";
  TEnd "g";
  TChar "
	";
  TStart "path" [mkAttr "style" "fill:#F2B643;"; mkAttr "d" "M474.854,355.831c-0.549-26.023-2.194-49.83-18.088-68.101l-5.482-204.302   c0,0,2.194-31.005-19.732-46.507C409.627,21.42,363.181,5.155,255.677,0C148.172,5.155,101.725,21.42,79.801,36.922   S60.068,83.429,60.068,83.429l-5.482,204.302c-15.896,18.271-17.541,42.077-18.087,68.101c-0.549,26.022,9.718,22.97,9.718,22.97   l209.46,5.09l209.46-5.09C465.135,378.801,475.402,381.854,474.854,355.831z"];
  TEnd "path";
  TChar "
	";
  TStart "polygon" [mkAttr "style" "fill:#2D404E;"; mkAttr "points" "252.016,73.188 69.614,73.188 62.797,198.868 252.287,198.868  "];
  TEnd "polygon";
  TChar "
	";
  TStart "polygon" [mkAttr "style" "fill:#253744;"; mkAttr "points" "69.614,73.188 62.797,198.868 252.287,198.868 252.28,189.551 71.368,189.551    75.135,73.048  "];
  TEnd "polygon";
  TChar "
	";
  TStart "polygon" [mkAttr "style" "fill:#2D404E;"; mkAttr "points" "259.271,73.188 441.67,73.188 448.486,198.868 258.997,198.868  "];
  TEnd "polygon";
  TChar "
	";
  TStart "path" [mkAttr "style" "fill:#D89932;"; mkAttr "d" "M69.704,47.16c2.611-3.764,5.915-7.283,10.096-10.238c13.989-9.892,37.962-20.095,81.409-27.521   v63.647h-91.49L69.704,47.16z"];
  TEnd "path";
  TChar "
	";
  TStart "polygon" [mkAttr "style" "fill:#253744;"; mkAttr "points" "69.719,73.048 161.208,73.048 162.179,78.446 72.486,78.446  "];
  TEnd "polygon";
  TChar "
	";
  TStart "polygon" [mkAttr "style" "fill:#253744;"; mkAttr "points" "164.323,73.048 347.031,73.048 345.37,78.446 165.707,78.446  "];
  TEnd "polygon";
  TChar "
	";
  TStart "path" [mkAttr "style" "fill:#D89932;"; mkAttr "d" "M441.647,47.16c-2.61-3.764-5.914-7.283-10.096-10.238c-13.988-9.892-37.962-20.095-81.407-27.521   v63.647h91.49L441.647,47.16z"];
  TEnd "path";
  TChar "
	";
  TStart "g" [];
  TChar "
		";
  TStart "g" [];
  TChar "
			";
  TStart "circle" [mkAttr "style" "fill:#B9483E;"; mkAttr "cx" "375.854"; mkAttr "cy" "50.187"; mkAttr "r" "14.277"];
  TEnd "circle";
  TChar "
			";
  TStart "circle" [mkAttr "style" "fill:#DF584C;"; mkAttr "cx" "375.853"; mkAttr "cy" "50.187"; mkAttr "r" "10.513"];
  TEnd "circle";
  TChar "
		";
  TEnd "g";
  TChar "
		";
  TStart "g" [];
  TChar "
			";
  TStart "circle" [mkAttr "style" "fill:#B9483E;"; mkAttr "cx" "408.146"; mkAttr "cy" "52.213"; mkAttr "r" "12.251"];
  TEnd "circle";
  TChar "
			";
  TStart "circle" [mkAttr "style" "fill:#DF584C;"; mkAttr "cx" "408.146"; mkAttr "cy" "52.213"; mkAttr "r" "9.021"];
  TEnd "circle";
  TChar "
		";
  TEnd "g";
  TChar "
	";
  TEnd "g";
  TChar "
	";
  TStart "g" [];
  TChar "
		";
  TStart "g" [];
  TChar "
			";
  TStart "circle" [mkAttr "style" "fill:#B9483E;"; mkAttr "cx" "135.501"; mkAttr "cy" "50.187"; mkAttr "r" "14.277"];
  TEnd "circle";
  TChar "
			";
  TStart "circle" [mkAttr "style" "fill:#DF584C;"; mkAttr "cx" "135.501"; mkAttr "cy" "50.187"; mkAttr "r" "10.513"];
  TEnd "circle";
  TChar "
		";
  TEnd "g";
  TChar "
		";
  TStart "g" [];
  TChar "
			";
  TStart "circle" [mkAttr "style" "fill:#B9483E;"; mkAttr "cx" "103.208"; mkAttr "cy" "52.213"; mkAttr "r" "12.251"];
  TEnd "circle";
  TChar "
			";
  TStart "circle" [mkAttr "style" "fill:#DF584C;"; mkAttr "cx" "103.208"; mkAttr "cy" "52.213"; mkAttr "r" "9.021"];
  TEnd "circle";
  TChar "
		";
  TEnd "g";
  TChar "
	";
  TEnd "g";
  TChar "
	";
  TStart "polygon" [mkAttr "style" "fill:#253744;"; mkAttr "points" "441.635,73.048 350.145,73.048 349.172,78.446 438.865,78.446  "];
  TEnd "polygon";
  TChar "
	";
  TStart "rect" [mkAttr "x" "165.153"; mkAttr "y" "22.803"; mkAttr "style" "fill:#D89932;"; mkAttr "width" "181.048"; mkAttr "height" "41.525"];
  TEnd "rect";
  TChar "
	";
  TStart "g" [];
  TChar "
		";
  TStart "path" [mkAttr "style" "fill:#253744;"; mkAttr "d" "M168.553,52.187c1.146,0.638,3.1,1.105,4.713,1.105c2.633,0,3.908-1.36,3.908-3.229    c0-2.081-1.274-3.1-3.695-4.672c-3.907-2.378-5.394-5.395-5.394-7.983c0-4.589,3.059-8.41,9.046-8.41    c1.869,0,3.653,0.511,4.503,1.019l-0.893,4.8c-0.807-0.51-2.039-0.977-3.652-0.977c-2.379,0-3.525,1.443-3.525,2.973    c0,1.698,0.849,2.591,3.95,4.459c3.779,2.294,5.182,5.182,5.182,8.197c0,5.224-3.865,8.664-9.471,8.664    c-2.293,0-4.544-0.595-5.479-1.146L168.553,52.187z"];
  TEnd "path";
  TChar "
		";
  TStart "path" [mkAttr "style" "fill:#253744;"; mkAttr "d" "M199.646,57.453c-0.807,0.383-2.378,0.68-4.332,0.68c-7.305,0-10.788-6.031-10.788-14.143    c0-10.786,5.989-14.992,11.551-14.992c1.955,0,3.313,0.381,3.866,0.764l-0.934,4.672c-0.637-0.299-1.359-0.552-2.592-0.552    c-3.142,0-5.987,2.719-5.987,9.811c0,6.838,2.59,9.515,5.987,9.515c0.936,0,1.997-0.211,2.677-0.425L199.646,57.453z"];
  TEnd "path";
  TChar "
		";
  TStart "path" [mkAttr "style" "fill:#253744;"; mkAttr "d" "M208.271,29.252v11.469h5.818V29.252h5.564v28.626h-5.564V45.901h-5.818v11.977h-5.564V29.252    H208.271z"];
  TEnd "path";
  TChar "
		";
  TStart "path" [mkAttr "style" "fill:#253744;"; mkAttr "d" "M241.489,43.056c0,10.787-3.822,15.163-9.259,15.163c-6.499,0-9.047-6.881-9.047-14.737    c0-7.815,3.101-14.569,9.428-14.569C239.533,28.912,241.489,36.516,241.489,43.056z M228.958,43.565    c0,6.498,1.231,9.811,3.482,9.811c2.336,0,3.228-4.247,3.228-10.065c0-5.012-0.764-9.556-3.271-9.556    C230.191,33.755,228.958,37.408,228.958,43.565z"];
  TEnd "path";
  TChar "
		";
  TStart "path" [mkAttr "style" "fill:#253744;"; mkAttr "d" "M261.921,43.056c0,10.787-3.823,15.163-9.258,15.163c-6.499,0-9.047-6.881-9.047-14.737    c0-7.815,3.101-14.569,9.428-14.569C259.967,28.912,261.921,36.516,261.921,43.056z M249.391,43.565    c0,6.498,1.231,9.811,3.483,9.811c2.336,0,3.228-4.247,3.228-10.065c0-5.012-0.764-9.556-3.271-9.556    C250.622,33.755,249.391,37.408,249.391,43.565z"];
  TEnd "path";
  TChar "
		";
  TStart "path" [mkAttr "style" "fill:#253744;"; mkAttr "d" "M265.448,29.252h5.565v23.911h7.347v4.715h-12.912V29.252z"];
  TEnd "path";
  TChar "
		";
  TStart "path" [mkAttr "style" "fill:#253744;"; mkAttr "d" "M288.345,29.678c1.698-0.383,3.907-0.554,6.327-0.554c2.677,0,5.267,0.339,7.264,2.039    c1.53,1.275,2.166,3.186,2.166,5.183c0,2.548-1.315,5.011-4.162,6.243v0.169c3.312,0.935,5.096,3.695,5.096,6.839    c0,2.378-0.764,4.204-2.123,5.605c-1.698,1.868-4.587,2.889-9.387,2.889c-2.123,0-3.906-0.128-5.181-0.297L288.345,29.678    L288.345,29.678z M293.911,41.018h1.187c1.997,0,3.525-1.698,3.525-4.034c0-2.083-0.977-3.695-3.271-3.695    c-0.594,0-1.104,0.042-1.441,0.169V41.018z M293.911,53.717c0.337,0.084,0.72,0.084,1.23,0.084c2.25,0,4.12-1.359,4.12-4.289    c0-2.847-1.954-4.334-4.164-4.375h-1.187L293.911,53.717L293.911,53.717z"];
  TEnd "path";
  TChar "
		";
  TStart "path" [mkAttr "style" "fill:#253744;"; mkAttr "d" "M314.257,29.252v18.603c0,4.206,1.273,5.479,2.717,5.479c1.614,0,2.761-1.147,2.761-5.479V29.252    h5.565v17.626c0,7.348-2.763,11.341-8.284,11.341c-5.988,0-8.324-4.12-8.324-11.299V29.252H314.257z"];
  TEnd "path";
  TChar "
		";
  TStart "path" [mkAttr "style" "fill:#253744;"; mkAttr "d" "M329.467,52.187c1.146,0.638,3.1,1.105,4.715,1.105c2.633,0,3.906-1.36,3.906-3.229    c0-2.081-1.273-3.1-3.695-4.672c-3.908-2.378-5.395-5.395-5.395-7.983c0-4.589,3.059-8.41,9.047-8.41    c1.869,0,3.653,0.511,4.503,1.019l-0.892,4.8c-0.807-0.51-2.039-0.977-3.653-0.977c-2.378,0-3.524,1.443-3.524,2.973    c0,1.698,0.85,2.591,3.949,4.459c3.779,2.294,5.182,5.182,5.182,8.197c0,5.224-3.865,8.664-9.472,8.664    c-2.294,0-4.545-0.595-5.478-1.146L329.467,52.187z"];
  TEnd "path";
  TChar "
	";
  TEnd "g";
  TChar "
	";
  TStart "rect" [mkAttr "x" "165.153"; mkAttr "y" "62.252"; mkAttr "style" "fill:#2D404E;"; mkAttr "width" "181.048"; mkAttr "height" "2.076"];
  TEnd "rect";
  TChar "
	";
  TStart "rect" [mkAttr "x" "165.153"; mkAttr "y" "22.803"; mkAttr "style" "fill:#2D404E;"; mkAttr "width" "181.048"; mkAttr "height" "2.076"];
  TEnd "rect";
  TChar "
	";
  TStart "path" [mkAttr "style" "fill:#D89932;"; mkAttr "d" "M264.181,10.265c0,2.433-1.972,4.405-4.406,4.405h-8.196c-2.433,0-4.405-1.973-4.405-4.405l0,0   c0-2.434,1.973-4.405,4.405-4.405h8.196C262.208,5.859,264.181,7.831,264.181,10.265L264.181,10.265z"];
  TEnd "path";
  TChar "
	";
  TStart "path" [mkAttr "style" "fill:#D89932;"; mkAttr "d" "M404.574,198.868H255.677H106.781c0,0-30.118,3.974-14.364,25.287   c15.753,21.314,32.434,43.554,55.601,43.554s107.661,0,107.661,0s84.493,0,107.659,0c23.168,0,39.848-22.239,55.602-43.554   C434.691,202.842,404.574,198.868,404.574,198.868z"];
  TEnd "path";
  TChar "
	";
  TStart "path" [mkAttr "style" "fill:#2D404E;"; mkAttr "d" "M365.952,359.601c0,7.338-5.949,13.287-13.288,13.287H158.689c-7.338,0-13.288-5.949-13.288-13.287   v-73.507c0-7.338,5.95-13.288,13.288-13.288h193.975c7.339,0,13.288,5.95,13.288,13.288V359.601z"];
  TEnd "path";
  TChar "
	";
  TStart "g" [];
  TChar "
		";
  TStart "g" [];
  TChar "
			";
  TStart "rect" [mkAttr "x" "221.828"; mkAttr "y" "289.132"; mkAttr "style" "fill:#F2B643;"; mkAttr "width" "67.695"; mkAttr "height" "6.266"];
  TEnd "rect";
  TChar "
		";
  TEnd "g";
  TChar "
		";
  TStart "g" [];
  TChar "
			";
  TStart "rect" [mkAttr "x" "221.828"; mkAttr "y" "304.423"; mkAttr "style" "fill:#F2B643;"; mkAttr "width" "67.695"; mkAttr "height" "6.266"];
  TEnd "rect";
  TChar "
		";
  TEnd "g";
  TChar "
		";
  TStart "g" [];
  TChar "
			";
  TStart "rect" [mkAttr "x" "221.828"; mkAttr "y" "319.714"; mkAttr "style" "fill:#F2B643;"; mkAttr "width" "67.695"; mkAttr "height" "6.266"];
  TEnd "rect";
  TChar "
		";
  TEnd "g";
  TChar "
		";
  TStart "g" [];
  TChar "
			";
  TStart "rect" [mkAttr "x" "221.828"; mkAttr "y" "335.005"; mkAttr "style" "fill:#F2B643;"; mkAttr "width" "67.695"; mkAttr "height" "6.267"];
  TEnd "rect";
  TChar "
		";
  TEnd "g";
  TChar "
		";
  TStart "g" [];
  TChar "
			";
  TStart "rect" [mkAttr "x" "221.828"; mkAttr "y" "350.296"; mkAttr "style" "fill:#F2B643;"; mkAttr "width" "67.695"; mkAttr "height" "6.267"];
  TEnd "rect";
  TChar "
		";
  TEnd "g";
  TChar "
	";
  TEnd "g";
  TChar "
	";
  TStart "g" [];
  TChar "
		";
  TStart "g" [];
  TChar "
			";
  TStart "rect" [mkAttr "x" "168.292"; mkAttr "y" "289.132"; mkAttr "style" "fill:#F2B643;"; mkAttr "width" "38.181"; mkAttr "height" "6.266"];
  TEnd "rect";
  TChar "
		";
  TEnd "g";
  TChar "
		";
  TStart "g" [];
  TChar "
			";
  TStart "rect" [mkAttr "x" "168.292"; mkAttr "y" "304.423"; mkAttr "style" "fill:#F2B643;"; mkAttr "width" "38.181"; mkAttr "height" "6.266"];
  TEnd "rect";
  TChar "
		";
  TEnd "g";
  TChar "
		";
  TStart "g" [];
  TChar "
			";
  TStart "rect" [mkAttr "x" "168.292"; mkAttr "y" "319.714"; mkAttr "style" "fill:#F2B643;"; mkAttr "width" "38.181"; mkAttr "height" "6.266"];
  TEnd "rect";
  TChar "
		";
  TEnd "g";
  TChar "
		";
  TStart "g" [];
  TChar "
			";
  TStart "rect" [mkAttr "x" "168.292"; mkAttr "y" "335.005"; mkAttr "style" "fill:#F2B643;"; mkAttr "width" "38.181"; mkAttr "height" "6.267"];
  TEnd "rect";
  TChar "
		";
  TEnd "g";
  TChar "
		";
  TStart "g" [];
  TChar "
			";
  TStart "rect" [mkAttr "x" "168.292"; mkAttr "y" "350.296"; mkAttr "style" "fill:#F2B643;"; mkAttr "width" "38.181"; mkAttr "height" "6.267"];
  TEnd "rect";
  TChar "
		";
  TEnd "g";
  TChar "
	";
  TEnd "g";
  TChar "
	";
  TStart "g" [];
  TChar "
		";
  TStart "g" [];
  TChar "
			";
  TStart "rect" [mkAttr "x" "304.877"; mkAttr "y" "289.132"; mkAttr "style" "fill:#F2B643;"; mkAttr "width" "38.181"; mkAttr "height" "6.266"];
  TEnd "rect";
  TChar "
		";
  TEnd "g";
  TChar "
		";
  TStart "g" [];
  TChar "
			";
  TStart "rect" [mkAttr "x" "304.877"; mkAttr "y" "304.423"; mkAttr "style" "fill:#F2B643;"; mkAttr "width" "38.181"; mkAttr "height" "6.266"];
  TEnd "rect";
  TChar "
		";
  TEnd "g";
  TChar "
		";
  TStart "g" [];
  TChar "
			";
  TStart "rect" [mkAttr "x" "304.877"; mkAttr "y" "319.714"; mkAttr "style" "fill:#F2B643;"; mkAttr "width" "38.181"; mkAttr "height" "6.266"];
  TEnd "rect";
  TChar "
		";
  TEnd "g";
  TChar "
		";
  TStart "g" [];
  TChar "
			";
  TStart "rect" [mkAttr "x" "304.877"; mkAttr "y" "335.005"; mkAttr "style" "fill:#F2B643;"; mkAttr "width" "38.181"; mkAttr "height" "6.267"];
  TEnd "rect";
  TChar "
		";
  TEnd "g";
  TChar "
		";
  TStart "g" [];
  TChar "
			";
  TStart "rect" [mkAttr "x" "304.877"; mkAttr "y" "350.296"; mkAttr "style" "fill:#F2B643;"; mkAttr "width" "38.181"; mkAttr "height" "6.267"];
  TEnd "rect";
  TChar "
		";
  TEnd "g";
  TChar "
	";
  TEnd "g";
  TChar "
	";
  TStart "path" [mkAttr "style" "fill:#D89932;"; mkAttr "d" "M81.759,226.472c0,0,7.876,14.363,20.387,24.558c12.511,10.193,25.947,18.068,25.947,37.53   c0,19.461,0,84.328,0,84.328s-2.78-28.264-12.047-52.357c-9.267-24.095-17.606-30.583-34.287-36.142V226.472z"];
  TEnd "path";
  TChar "
	";
  TStart "path" [mkAttr "style" "fill:#D89932;"; mkAttr "d" "M429.592,226.472c0,0-7.877,14.363-20.388,24.558c-12.512,10.193-25.947,18.068-25.947,37.53   c0,19.461,0,84.328,0,84.328s2.781-28.264,12.048-52.357c9.267-24.095,17.605-30.583,34.287-36.142V226.472L429.592,226.472z"];
  TEnd "path";
  TChar "
	";
  TStart "g" [];
  TChar "
		";
  TStart "circle" [mkAttr "style" "fill:#EB8923;"; mkAttr "cx" "67.86"; mkAttr "cy" "218.595"; mkAttr "r" "16.217"];
  TEnd "circle";
  TChar "
		";
  TStart "path" [mkAttr "style" "fill:#D27228;"; mkAttr "d" "M67.86,234.812c8.956,0,16.217-7.261,16.217-16.218s-7.261-16.217-16.217-16.217    c-6.275,0-11.718,3.565-14.415,8.778c0,0,12.623-12.538,23.195,1.554C87.854,227.659,67.86,234.812,67.86,234.812z"];
  TEnd "path";
  TChar "
	";
  TEnd "g";
  TChar "
	";
  TStart "g" [];
  TChar "
		";
  TStart "circle" [mkAttr "style" "fill:#EB8923;"; mkAttr "cx" "443.491"; mkAttr "cy" "218.595"; mkAttr "r" "16.217"];
  TEnd "circle";
  TChar "
		";
  TStart "path" [mkAttr "style" "fill:#D27228;"; mkAttr "d" "M443.493,234.812c-8.957,0-16.218-7.261-16.218-16.218s7.261-16.217,16.218-16.217    c6.275,0,11.717,3.565,14.415,8.778c0,0-12.623-12.538-23.195,1.554C423.496,227.659,443.493,234.812,443.493,234.812z"];
  TEnd "path";
  TChar "
	";
  TEnd "g";
  TChar "
	";
  TStart "path" [mkAttr "style" "fill:#D89932;"; mkAttr "d" "M38.589,372.894c2.864,7.324,7.628,5.907,7.628,5.907l209.46,5.09l209.46-5.09   c0,0,4.766,1.416,7.629-5.909L38.589,372.894z"];
  TEnd "path";
  TChar "
	";
  TStart "path" [mkAttr "style" "fill:#2D404E;"; mkAttr "d" "M256.001,437.258H120.427c22.147,22.147,43.186,23.807,56.473,23.807c13.288,0,79.102,0,79.102,0   s65.812,0,79.1,0c13.287,0,34.327-1.659,56.473-23.807H256.001z"];
  TEnd "path";
  TChar "
	";
  TStart "polygon" [mkAttr "style" "fill:#253744;"; mkAttr "points" "441.74,73.188 448.557,198.868 259.066,198.868 259.075,189.551 439.988,189.551    436.22,73.048  "];
  TEnd "polygon";
  TChar "
	";
  TStart "g" [];
  TChar "
		";
  TStart "g" [];
  TChar "
			";
  TStart "path" [mkAttr "style" "fill:#2D404E;"; mkAttr "d" "M34.045,328.462c-12.218,0-12.218-14.988-12.218-35.732h4.983c0,20.206,0.322,30.749,7.234,30.749     c5.273,0,8.937-1.142,8.973-1.153l1.506,4.75C44.344,327.132,40.08,328.462,34.045,328.462z"];
  TEnd "path";
  TChar "
		";
  TEnd "g";
  TChar "
		";
  TStart "path" [mkAttr "style" "fill:#2D404E;"; mkAttr "d" "M36.478,259.341c-5.004,0-12.159,0-12.159,0s-7.155,0-12.159,0s-13.259,5.538-8.301,16.886    c4.958,11.352,8.833,19.932,20.46,20.209c11.627-0.277,15.502-8.857,20.459-20.209C49.736,264.879,41.481,259.341,36.478,259.341z    "];
  TEnd "path";
  TChar "
		";
  TStart "path" [mkAttr "style" "fill:#253744;"; mkAttr "d" "M24.318,289.132c-11.418,0-18.066-15.327-20.685-24.602c-1.566,2.771-1.976,6.658,0.225,11.696    c4.958,11.352,8.833,19.932,20.46,20.209c11.627-0.277,15.502-8.857,20.459-20.209c2.142-4.901,1.812-8.714,0.351-11.468    C42.604,273.646,35.931,289.132,24.318,289.132z"];
  TEnd "path";
  TChar "
		";
  TStart "path" [mkAttr "style" "opacity:0.3;fill:#586A73;enable-background:new    ;"; mkAttr "d" "M11.884,264.53c0,0,6.045,7.59,12.435,8.275    c6.39,0.687,15.802-8.275,15.802-8.275H11.884z"];
  TEnd "path";
  TChar "
	";
  TEnd "g";
  TChar "
	";
  TStart "path" [mkAttr "style" "opacity:0.3;fill:#D1D5D5;enable-background:new    ;"; mkAttr "d" "M57.584,211.893c0,0-5.021,8.157,0,13.808   c5.021,5.649,13.023,3.139,13.023,3.139L57.584,211.893z"];
  TEnd "path";
  TChar "
	";
  TStart "path" [mkAttr "style" "opacity:0.3;fill:#D1D5D5;enable-background:new    ;"; mkAttr "d" "M453.771,211.893c0,0,5.021,8.157,0,13.808   c-5.021,5.649-13.023,3.139-13.023,3.139L453.771,211.893z"];
  TEnd "path";
  TChar "
	";
  TStart "polygon" [mkAttr "style" "opacity:0.3;fill:#586A73;enable-background:new    ;"; mkAttr "points" "74.959,78.446 71.368,189.551 87.855,189.551    130.921,78.446  "];
  TEnd "polygon";
  TChar "
	";
  TStart "polygon" [mkAttr "style" "opacity:0.3;fill:#586A73;enable-background:new    ;"; mkAttr "points" "259.259,78.446 259.259,189.551 280.825,189.551    314.045,78.446  "];
  TEnd "polygon";
  TChar "
	";
  TStart "g" [];
  TChar "
		";
  TStart "path" [mkAttr "style" "fill:#2D404E;"; mkAttr "d" "M43.771,437.258c0,0,1.008,29.345,1.008,45.399c0,16.056,3.091,29.344,23.981,29.344    s30.856,0.001,30.856-29.344s0-45.399,0-45.399H43.771z"];
  TEnd "path";
  TChar "
		";
  TStart "path" [mkAttr "style" "fill:#253744;"; mkAttr "d" "M59.697,488.886c-0.393-10.786,0.61-39.724,0.61-39.724l39.31-5.976c0-3.885,0-5.929,0-5.929    H43.771c0,0,1.008,29.345,1.008,45.399C44.779,498.712,47.87,512,68.76,512c0.886,0,1.745-0.002,2.591-0.004    C60.251,507.175,59.996,497.125,59.697,488.886z"];
  TEnd "path";
  TChar "
	";
  TEnd "g";
  TChar "
	";
  TStart "g" [];
  TChar "
		";
  TStart "path" [mkAttr "style" "fill:#2D404E;"; mkAttr "d" "M468.23,437.258c0,0-1.008,29.345-1.008,45.399c0,16.056-3.091,29.344-23.981,29.344    s-30.856,0.001-30.856-29.344s0-45.399,0-45.399H468.23z"];
  TEnd "path";
  TChar "
		";
  TStart "path" [mkAttr "style" "fill:#253744;"; mkAttr "d" "M452.303,488.886c0.393-10.786-0.609-39.724-0.609-39.724l-39.31-5.976c0-3.885,0-5.929,0-5.929    h55.846c0,0-1.008,29.345-1.008,45.399c0,16.056-3.091,29.344-23.981,29.344c-0.886,0-1.744-0.002-2.591-0.004    C451.75,507.175,452.005,497.125,452.303,488.886z"];
  TEnd "path";
  TChar "
	";
  TEnd "g";
  TChar "
	";
  TStart "g" [];
  TChar "
		";
  TStart "polygon" [mkAttr "style" "fill:#D89932;"; mkAttr "points" "67.859,310.597 56.865,318.209 99.616,347.981 104.926,310.597   "];
  TEnd "polygon";
  TChar "
		";
  TStart "path" [mkAttr "style" "fill:#586A73;"; mkAttr "d" "M99.616,347.981c0,2.753-2.231,4.983-4.983,4.983H60.306c-2.752,0-4.983-2.23-4.983-4.983v-26.175    c0-2.753,2.231-4.983,4.983-4.983h34.327c2.751,0,4.983,2.23,4.983,4.983V347.981z"];
  TEnd "path";
  TChar "
		";
  TStart "path" [mkAttr "style" "opacity:0.3;fill:#C6CBCB;enable-background:new    ;"; mkAttr "d" "M60.307,316.823c-2.752,0-4.983,2.23-4.983,4.983v26.175    c0,2.753,2.231,4.983,4.983,4.983l34.327-36.142H60.307V316.823z"];
  TEnd "path";
  TChar "
		";
  TStart "path" [mkAttr "style" "fill:#2D404E;"; mkAttr "d" "M59.559,347.128c0-3.473,0-15.847,0-22.94c0-3.568,1.375-5.914,2.742-7.364h-1.995    c-2.752,0-4.983,2.23-4.983,4.983v26.175c0,2.753,2.231,4.983,4.983,4.983h34.327c1.912,0,3.551-1.089,4.388-2.667    C70.194,350.311,59.559,350.494,59.559,347.128z"];
  TEnd "path";
  TChar "
	";
  TEnd "g";
  TChar "
	";
  TStart "g" [];
  TChar "
		";
  TStart "polygon" [mkAttr "style" "fill:#D89932;"; mkAttr "points" "444.142,310.597 455.137,318.209 412.385,347.981 407.077,310.597   "];
  TEnd "polygon";
  TChar "
		";
  TStart "path" [mkAttr "style" "fill:#586A73;"; mkAttr "d" "M412.385,347.981c0,2.753,2.231,4.983,4.983,4.983h34.326c2.752,0,4.982-2.23,4.982-4.983v-26.175    c0-2.753-2.23-4.983-4.982-4.983h-34.326c-2.752,0-4.983,2.23-4.983,4.983V347.981z"];
  TEnd "path";
  TChar "
		";
  TStart "path" [mkAttr "style" "opacity:0.3;fill:#C6CBCB;enable-background:new    ;"; mkAttr "d" "M451.695,316.823c2.752,0,4.982,2.23,4.982,4.983v26.175    c0,2.753-2.23,4.983-4.982,4.983l-34.326-36.142h34.326V316.823z"];
  TEnd "path";
  TChar "
		";
  TStart "path" [mkAttr "style" "fill:#2D404E;"; mkAttr "d" "M452.443,347.128c0-3.473,0-15.847,0-22.94c0-3.568-1.375-5.914-2.742-7.364h1.995    c2.752,0,4.982,2.23,4.982,4.983v26.175c0,2.753-2.23,4.983-4.982,4.983H417.37c-1.912,0-3.552-1.089-4.389-2.667    C441.807,350.311,452.443,350.494,452.443,347.128z"];
  TEnd "path";
  TChar "
	";
  TEnd "g";
  TChar "
";
  TEnd "g";
  TChar "
";
  TStart "g" [];
  TChar "
";
  TEnd "g";
  TChar "
";
  TStart "g" [];
  TChar "
";
  TEnd "g";
  TChar "
";
  TStart "g" [];
  TChar "
";
  TEnd "g";
  TChar "
";
  TStart "g" [];
  TChar "
";
  TEnd "g";
  TChar "
";
  TStart "g" [];
  TChar "
";
  TEnd "g";
  TChar "
";
  TStart "g" [];
  TChar "
";
  TEnd "g";
  TChar "
";
  TStart "g" [];
  TChar "
";
  TEnd "g";
  TChar "
";
  TStart "g" [];
  TChar "
";
  TEnd "g";
  TChar "
";
  TStart "g" [];
  TChar "
";
  TEnd "g";
  TChar "
";
  TStart "g" [];
  TChar "
";
  TEnd "g";
  TChar "
";
  TStart "g" [];
  TChar "
";
  TEnd "g";
  TChar "
";
  TStart "g" [];
  TChar "
";
  TEnd "g";
  TChar "
";
  TStart "g" [];
  TChar "
";
  TEnd "g";
  TChar "
";
  TStart "g" [];
  TChar "
";
  TEnd "g";
  TChar "
";
  TStart "g" [];
  TChar "
";
  TEnd "g";
  TChar "
";
  TEnd "svg"]%string.

(** testdata/testIcons/telescope.svg *)
Definition t_telescope : list token := [
  TOther;
  TOther;
  TStart "svg" [mkAttr "version" "1.1"; mkAttr "id" "Capa_1"; mkAttr "xmlns" "http://www.w3.org/2000/svg"; mkAttr "xlink" "http://www.w3.org/1999/xlink"; mkAttr "x" "0px"; mkAttr "y" "0px"; mkAttr "viewBox" "0 0 512 512"; mkAttr "style" "enable-background:new 0 0 512 512;"; mkAttr "space" "preserve"];
  TChar "
";
  TStart "g" [];
  TChar "
	";
  TStart "path" [mkAttr "style" "fill:none;"; mkAttr "d" "M340.299,384l-76.127-137.023c-0.018,0.005-0.035,0.01-0.052,0.015V384H340.299z"];
  TEnd "path";
  TChar "
	";
  TStart "path" [mkAttr "style" "fill:none;"; mkAttr "d" "M248.12,384V246.992c-0.02-0.005-0.04-0.012-0.06-0.017L171.936,384H248.12z"];
  TEnd "path";
  TChar "
	";
  TStart "polygon" [mkAttr "style" "fill:#888693;"; mkAttr "points" "264.12,384 264.12,400 349.188,400 340.299,384  "];
  TEnd "polygon";
  TChar "
	";
  TStart "polygon" [mkAttr "style" "fill:#888693;"; mkAttr "points" "171.936,384 163.048,400 248.12,400 248.12,384  "];
  TEnd "polygon";
  TChar "
	";
  TStart "path" [mkAttr "style" "fill:#48BBEE;"; mkAttr "d" "M504.166,62.273c-8.96-21.619-25.374-39.016-46.409-49.328l48.474,117.02   C513.815,107.806,513.125,83.895,504.166,62.273z"];
  TEnd "path";
  TChar "
	";
  TStart "polygon" [mkAttr "style" "fill:#B6B8BE;"; mkAttr "points" "133.659,217.722 386.112,111.749 364.494,59.556 103.448,169.137 112.04,165.53  "];
  TEnd "polygon";
  TChar "
	";
  TStart "path" [mkAttr "style" "fill:#888693;"; mkAttr "d" "M386.336,112.29L386.336,112.29l-0.224-0.541L133.659,217.722l0.105,0.253h0L154.899,269   l-8.561,3.594l85.418-35.856c-4.76-5.586-7.639-12.824-7.639-20.738c0-17.673,14.327-32,32-32   c16.707,0,30.416,12.805,31.866,29.135l119.369-50.108c-0.004-0.01-0.01-0.021-0.014-0.031L386.336,112.29z"];
  TEnd "path";
  TChar "
	";
  TStart "path" [mkAttr "style" "fill:#FF4F19;"; mkAttr "d" "M386.336,112.29l95.897-40.256l27.316,65.943l-3.319-8.011l-48.474-117.02l-3.317-8.008   c-0.813-1.961-2.367-3.516-4.328-4.328c-1.969-0.813-4.156-0.813-6.125,0l-66.516,27.555c-5.922,2.449-10.531,7.063-12.992,12.984   c-2.453,5.922-2.453,12.449,0,18.371l0.015,0.036l21.618,52.193L386.336,112.29z"];
  TEnd "path";
  TChar "
	";
  TStart "polygon" [mkAttr "style" "fill:#5C546A;"; mkAttr "points" "46.109,218.865 46.112,218.871 70.604,277.992 70.604,277.993 122.349,256.56    97.853,197.433  "];
  TEnd "polygon";
  TChar "
	";
  TStart "path" [mkAttr "style" "fill:#5C546A;"; mkAttr "d" "M248.06,246.975c-5.327-1.382-10.109-4.107-13.979-7.785L89.127,500.113   c-2.148,3.863-0.758,8.734,3.109,10.879c1.227,0.684,2.563,1.008,3.875,1.008c2.813,0,5.539-1.484,7-4.113L163.048,400l8.889-16   L248.06,246.975z"];
  TEnd "path";
  TChar "
	";
  TStart "path" [mkAttr "style" "fill:#5C546A;"; mkAttr "d" "M340.299,384l8.889,16l59.939,107.887c1.461,2.629,4.188,4.113,7,4.113   c1.313,0,2.648-0.324,3.875-1.008c3.867-2.145,5.258-7.016,3.109-10.879l-144.96-260.919c-3.869,3.677-8.652,6.401-13.979,7.782   L340.299,384z"];
  TEnd "path";
  TChar "
	";
  TStart "path" [mkAttr "style" "fill:#5C546A;"; mkAttr "d" "M264.12,246.991c-2.558,0.658-5.239,1.009-8.001,1.009c-2.762,0-5.442-0.35-7.999-1.008V384v16v104   c0,4.418,3.578,8,8,8s8-3.582,8-8V400v-16V246.991z"];
  TEnd "path";
  TChar "
	";
  TStart "path" [mkAttr "style" "fill:#FF4F19;"; mkAttr "d" "M110.423,227.774l23.341-9.798l-0.105-0.253L112.04,165.53l-8.593,3.607   c-3.945,1.637-7.023,4.711-8.656,8.656c-1.641,3.953-1.641,8.305,0,12.25l3.062,7.39l24.496,59.127l3.06,7.385L110.423,227.774z"];
  TEnd "path";
  TChar "
	";
  TStart "path" [mkAttr "style" "fill:#E5001E;"; mkAttr "d" "M133.765,217.976L133.765,217.976l-23.341,9.798l14.985,36.171c1.633,3.953,4.703,7.027,8.656,8.664   c1.969,0.816,4.039,1.227,6.109,1.227c2.086,0,4.172-0.414,6.164-1.242l8.561-3.594L133.765,217.976z"];
  TEnd "path";
  TChar "
	";
  TStart "path" [mkAttr "style" "fill:#E5001E;"; mkAttr "d" "M482.233,72.034l-95.897,40.256h0l21.002,50.707c0.005,0.011,0.01,0.021,0.014,0.031   c3.835,9.211,12.778,14.781,22.197,14.781c3.055,0,6.156-0.586,9.148-1.824l66.523-27.555c1.961-0.813,3.516-2.367,4.328-4.328   s0.813-4.164,0-6.125L482.233,72.034z"];
  TEnd "path";
  TChar "
	";
  TStart "path" [mkAttr "style" "fill:#FF4F19;"; mkAttr "d" "M58.666,249.176l11.938,28.816l-24.492-59.121c-0.001-0.002-0.002-0.004-0.003-0.006   c-3.369-8.148-12.749-12.029-20.904-8.662l-14.781,6.125c-8.141,3.379-12.023,12.754-8.656,20.906l24.492,59.121l-11.936-28.813   L58.666,249.176z"];
  TEnd "path";
  TChar "
	";
  TStart "path" [mkAttr "style" "fill:#E5001E;"; mkAttr "d" "M58.666,249.176l-44.342,18.367l11.936,28.813c1.633,3.953,4.703,7.031,8.656,8.664   c1.977,0.82,4.047,1.227,6.125,1.227c2.07,0,4.148-0.41,6.125-1.227l14.781-6.125c3.953-1.633,7.023-4.707,8.656-8.656   c1.641-3.949,1.641-8.3,0-12.245c0,0,0-0.001,0-0.001L58.666,249.176z"];
  TEnd "path";
  TChar "
	";
  TStart "path" [mkAttr "style" "fill:#B6B8BE;"; mkAttr "d" "M256.118,184c-17.673,0-32,14.327-32,32c0,7.914,2.879,15.152,7.639,20.738   c0.731,0.858,1.508,1.677,2.325,2.453c3.869,3.678,8.651,6.403,13.979,7.785c0.02,0.005,0.04,0.012,0.06,0.017   c2.556,0.658,5.237,1.008,7.999,1.008c2.763,0,5.444-0.35,8.001-1.009c0.018-0.005,0.035-0.01,0.052-0.015   c5.327-1.381,10.11-4.105,13.979-7.782c6.135-5.83,9.967-14.062,9.967-23.194c0-0.966-0.05-1.921-0.134-2.865   C286.534,196.805,272.825,184,256.118,184z M256.118,232c-8.836,0-16-7.164-16-16c0-8.837,7.164-16,16-16s16,7.163,16,16   C272.118,224.836,264.954,232,256.118,232z"];
  TEnd "path";
  TChar "
	";
  TStart "circle" [mkAttr "style" "fill:#5C546A;"; mkAttr "cx" "256.118"; mkAttr "cy" "216"; mkAttr "r" "16"];
  TEnd "circle";
  TChar "
";
  TEnd "g";
  TChar "
";
  TStart "g" [];
  TChar "
";
  TEnd "g";
  TChar "
";
  TStart "g" [];
  TChar "
";
  TEnd "g";
  TChar "
";
  TStart "g" [];
  TChar "
";
  TEnd "g";
  TChar "
";
  TStart "g" [];
  TChar "
";
  TEnd "g";
  TChar "
";
  TStart "g" [];
  TChar "
";
  TEnd "g";
  TChar "
";
  TStart "g" [];
  TChar "
";
  TEnd "g";
  TChar "
";
  TStart "g" [];
  TChar "
";
  TEnd "g";
  TChar "
";
  TStart "g" [];
  TChar "
";
  TEnd "g";
  TChar "
";
  TStart "g" [];
  TChar "
";
  TEnd "g";
  TChar "
";
  TStart "g" [];
  TChar "
";
  TEnd "g";
  TChar "
";
  TStart "g" [];
  TChar "
";
  TEnd "g";
  TChar "
";
  TStart "g" [];
  TChar "
";
  TEnd "g";
  TChar "
";
  TStart "g" [];
  TChar "
";
  TEnd "g";
  TChar "
";
  TStart "g" [];
  TChar "
";
  TEnd "g";
  TChar "
";
  TStart "g" [];
  TChar "
";
  TEnd "g";
  TChar "
";
  TEnd "svg"]%string.

(** testdata/testIcons/content-cut-light.svg *)
Definition t_content_cut_light : list token := [
  TOther;
  TStart "svg" [mkAttr "dc" "http://purl.org/dc/elements/1.1/"; mkAttr "cc" "http://creativecommons.org/ns#"; mkAttr "rdf" "http://www.w3.org/1999/02/22-rdf-syntax-ns#"; mkAttr "svg" "http://www.w3.org/2000/svg"; mkAttr "xmlns" "http://www.w3.org/2000/svg"; mkAttr "sodipodi" "http://sodipodi.sourceforge.net/DTD/sodipodi-0.dtd"; mkAttr "inkscape" "http://www.inkscape.org/namespaces/inkscape"; mkAttr "viewBox" "0 0 96 96"; mkAttr "version" "1.1"; mkAttr "id" "svg14"; mkAttr "docname" "content-cut-light.svg"; mkAttr "version" "0.92.2 2405546, 2018-03-11"];
  TChar "
  ";
  TStart "metadata" [mkAttr "id" "metadata20"];
  TChar "
    ";
  TStart "RDF" [];
  TChar "
      ";
  TStart "Work" [mkAttr "about" ""];
  TChar "
        ";
  TStart "format" [];
  TChar "image/svg+xml";
  TEnd "format";
  TChar "
        ";
  TStart "type" [mkAttr "resource" "http://purl.org/dc/dcmitype/StillImage"];
  TEnd "type";
  TChar "
        ";
  TStart "title" [];
  TEnd "title";
  TChar "
      ";
  TEnd "Work";
  TChar "
    ";
  TEnd "RDF";
  TChar "
  ";
  TEnd "metadata";
  TChar "
  ";
  TStart "defs" [mkAttr "id" "defs18"];
  TEnd "defs";
  TChar "
  ";
  TStart "namedview" [mkAttr "pagecolor" "#ffffff"; mkAttr "bordercolor" "#666666"; mkAttr "borderopacity" "1"; mkAttr "objecttolerance" "10"; mkAttr "gridtolerance" "10"; mkAttr "guidetolerance" "10"; mkAttr "pageopacity" "0"; mkAttr "pageshadow" "2"; mkAttr "window-width" "2436"; mkAttr "window-height" "1391"; mkAttr "id" "namedview16"; mkAttr "showgrid" "false"; mkAttr "zoom" "11.645833"; mkAttr "cx" "48"; mkAttr "cy" "48"; mkAttr "window-x" "476"; mkAttr "window-y" "272"; mkAttr "window-maximized" "0"; mkAttr "current-layer" "svg14"; mkAttr "units" "px"];
  TEnd "namedview";
  TChar "
  ";
  TStart "path" [mkAttr "d" "M 38.56,30.56 C 39.48,28.56 40,26.36 40,24 40,15.16 32.84,8 24,8 15.16,8 8,15.16 8,24 c 0,8.84 7.16,16 16,16 2.36,0 4.56,-0.52 6.56,-1.44 L 40,48 30.56,57.44 C 28.56,56.52 26.36,56 24,56 15.16,56 8,63.16 8,72 c 0,8.84 7.16,16 16,16 8.84,0 16,-7.16 16,-16 0,-2.36 -0.52,-4.56 -1.44,-6.56 L 48,56 76,84 H 88 V 80 Z M 24,32 c -4.4,0 -8,-3.56 -8,-8 0,-4.44 3.6,-8 8,-8 4.4,0 8,3.56 8,8 0,4.44 -3.6,8 -8,8 z m 0,48 c -4.4,0 -8,-3.56 -8,-8 0,-4.44 3.6,-8 8,-8 4.4,0 8,3.56 8,8 0,4.44 -3.6,8 -8,8 z M 48,50 c -1.12,0 -2,-0.88 -2,-2 0,-1.12 0.88,-2 2,-2 1.12,0 2,0.88 2,2 0,1.12 -0.88,2 -2,2 z M 76,12 52,36 60,44 88,16 v -4 z"; mkAttr "id" "path12"; mkAttr "connector-curvature" "0"; mkAttr "style" "stroke-width:4"];
  TEnd "path";
  TChar "
";
  TEnd "svg"]%string.

(** testdata/testIcons/defs.svg *)
Definition t_defs : list token := [
  TStart "svg" [mkAttr "viewBox" "0 0 300 100"; mkAttr "xmlns" "http://www.w3.org/2000/svg"; mkAttr "xlink" "http://www.w3.org/1999/xlink"];
  TChar "
  ";
  TOther;
  TChar "
  ";
  TStart "defs" [];
  TChar "
    ";
  TStart "circle" [mkAttr "id" "myCircle"; mkAttr "r" "50"];
  TEnd "circle";
  TChar "
    ";
  TStart "rect" [mkAttr "id" "myRect"; mkAttr "width" "50"; mkAttr "height" "50"; mkAttr "stroke" "black"];
  TEnd "rect";
  TChar "
    ";
  TStart "g" [mkAttr "id" "myGroup"; mkAttr "fill" "black"];
  TChar "
      ";
  TStart "circle" [mkAttr "r" "10"; mkAttr "cx" "0"];
  TEnd "circle";
  TChar "
      ";
  TStart "circle" [mkAttr "r" "10"; mkAttr "cx" "30"];
  TEnd "circle";
  TChar "
      ";
  TStart "rect" [mkAttr "x" "-2"; mkAttr "width" "35"; mkAttr "y" "20"; mkAttr "height" "10"];
  TEnd "rect";
  TChar "
    ";
  TEnd "g";
  TChar "
    ";
  TStart "path" [mkAttr "id" "myPath"; mkAttr "d" "M0 0 C 0 20, 20 20, 20 0"];
  TEnd "path";
  TChar "
  ";
  TEnd "defs";
  TChar "
 
  ";
  TOther;
  TChar "
  ";
  TStart "use" [mkAttr "x" "50"; mkAttr "y" "50"; mkAttr "href" "#myCircle"; mkAttr "fill" "red"];
  TEnd "use";
  TChar "
  ";
  TStart "use" [mkAttr "x" "25"; mkAttr "y" "25"; mkAttr "href" "#myRect"; mkAttr "fill" "orange"];
  TEnd "use";
  TChar "
  ";
  TStart "use" [mkAttr "x" "35"; mkAttr "y" "35"; mkAttr "href" "#myGroup"];
  TEnd "use";
  TChar "
  ";
  TStart "use" [mkAttr "x" "40"; mkAttr "y" "60"; mkAttr "href" "#myPath"; mkAttr "fill" "pink"];
  TEnd "use";
  TChar "
  ";
  TStart "use" [mkAttr "x" "150"; mkAttr "y" "50"; mkAttr "href" "#myCircle"; mkAttr "fill" "green"];
  TEnd "use";
  TChar "
  ";
  TStart "use" [mkAttr "x" "125"; mkAttr "y" "25"; mkAttr "href" "#myRect"; mkAttr "fill" "yellow"];
  TEnd "use";
  TChar "
  ";
  TStart "use" [mkAttr "x" "135"; mkAttr "y" "35"; mkAttr "href" "#myGroup"];
  TEnd "use";
  TChar "
  ";
  TStart "use" [mkAttr "x" "140"; mkAttr "y" "60"; mkAttr "href" "#myPath"; mkAttr "fill" "lime"];
  TEnd "use";
  TChar "
  ";
  TStart "use" [mkAttr "x" "250"; mkAttr "y" "50"; mkAttr "href" "#myCircle"; mkAttr "fill" "blue"];
  TEnd "use";
  TChar "
  ";
  TStart "use" [mkAttr "x" "225"; mkAttr "y" "25"; mkAttr "href" "#myRect"; mkAttr "fill" "purple"];
  TEnd "use";
  TChar "
  ";
  TStart "use" [mkAttr "x" "235"; mkAttr "y" "35"; mkAttr "href" "#myGroup"];
  TEnd "use";
  TChar "
  ";
  TStart "use" [mkAttr "x" "240"; mkAttr "y" "60"; mkAttr "href" "#myPath"; mkAttr "fill" "turquoise"];
  TEnd "use";
  TChar "
";
  TEnd "svg"]%string.

(** testdata/testIcons/24px.svg *)
Definition t_24px : list token := [
  TStart "svg" [mkAttr "xmlns" "http://www.w3.org/2000/svg"; mkAttr "height" "24"; mkAttr "viewBox" "0 0 24 24"; mkAttr "width" "24"];
  TStart "path" [mkAttr "d" "M6 6h2v12H6zm3.5 6l8.5 6V6z"];
  TEnd "path";
  TEnd "svg"]%string.

(** testdata/OpacityStrokeDashTest.svg *)
Definition t_OpacityStrokeDashTest : list token := [
  TStart "svg" [mkAttr "width" "4cm"; mkAttr "height" "4cm"; mkAttr "viewBox" "0 0 400 400"; mkAttr "xmlns" "http://www.w3.org/2000/svg"; mkAttr "version" "1.1"];
  TChar "
  ";
  TStart "title" [];
  TChar "Example triangle01- simple example of a 'path'";
  TEnd "title";
  TChar "
  ";
  TStart "desc" [];
  TChar "Testing dashes around a square.";
  TEnd "desc";
  TChar "

 ";
  TStart "rect" [mkAttr "x" "50"; mkAttr "y" "50"; mkAttr "width" "145"; mkAttr "height" "145"; mkAttr "fill" "green"; mkAttr "stroke" "blue"; mkAttr "stroke-width" "12"; mkAttr "stroke-dashoffset" "2"; mkAttr "stroke-dasharray" "8,3"];
  TEnd "rect";
  TChar "
 
  ";
  TStart "rect" [mkAttr "x" "220"; mkAttr "y" "50"; mkAttr "width" "145"; mkAttr "height" "145"; mkAttr "fill" "green"; mkAttr "stroke-opacity" "0.5"; mkAttr "stroke" "blue"; mkAttr "stroke-width" "12"; mkAttr "stroke-dashoffset" "7"; mkAttr "stroke-dasharray" "8,3"];
  TEnd "rect";
  TChar "
 
  ";
  TStart "rect" [mkAttr "x" "50"; mkAttr "y" "220"; mkAttr "width" "145"; mkAttr "height" "145"; mkAttr "fill" "green"; mkAttr "fill-opacity" "0.5"; mkAttr "stroke" "blue"; mkAttr "stroke-width" "12"; mkAttr "stroke-dashoffset" "8"; mkAttr "stroke-dasharray" "8,3"];
  TEnd "rect";
  TChar "

  ";
  TStart "rect" [mkAttr "x" "220"; mkAttr "y" "220"; mkAttr "width" "145"; mkAttr "height" "145"; mkAttr "fill" "green"; mkAttr "opacity" "0.5"; mkAttr "stroke" "blue"; mkAttr "stroke-width" "12"; mkAttr "stroke-dashoffset" "11"; mkAttr "stroke-dasharray" "8,3"];
  TEnd "rect";
  TChar "

";
  TEnd "svg"]%string.

(** testdata/OpacityStrokeDashTest2.svg *)
Definition t_OpacityStrokeDashTest2 : list token := [
  TStart "svg" [mkAttr "width" "4cm"; mkAttr "height" "4cm"; mkAttr "viewBox" "0 0 400 400"; mkAttr "xmlns" "http://www.w3.org/2000/svg"; mkAttr "version" "1.1"];
  TChar "
  ";
  TStart "title" [];
  TChar "dash lines on squares";
  TEnd "title";
  TChar "
  ";
  TStart "desc" [];
  TChar "dash lines on squares";
  TEnd "desc";
  TChar "

   ";
  TStart "desc" [];
  TChar "Testing dashes around a square.";
  TEnd "desc";
  TChar "

 ";
  TStart "rect" [mkAttr "x" "50"; mkAttr "y" "50"; mkAttr "width" "145"; mkAttr "height" "145"; mkAttr "fill" "green"; mkAttr "stroke" "blue"; mkAttr "stroke-width" "12"; mkAttr "stroke-dashoffset" "2"; mkAttr "stroke-dasharray" "25,20"; mkAttr "stroke-linecap" "round"];
  TEnd "rect";
  TChar "
 
  ";
  TStart "rect" [mkAttr "x" "220"; mkAttr "y" "50"; mkAttr "width" "145"; mkAttr "height" "145"; mkAttr "fill" "green"; mkAttr "stroke-opacity" "0.5"; mkAttr "stroke" "blue"; mkAttr "stroke-width" "12"; mkAttr "stroke-dashoffset" "7"; mkAttr "stroke-dasharray" "25,20"; mkAttr "stroke-linecap" "flat"];
  TEnd "rect";
  TChar "
 
  ";
  TStart "rect" [mkAttr "x" "50"; mkAttr "y" "220"; mkAttr "width" "145"; mkAttr "height" "145"; mkAttr "fill" "green"; mkAttr "fill-opacity" "0.5"; mkAttr "stroke" "blue"; mkAttr "stroke-width" "12"; mkAttr "stroke-dashoffset" "8"; mkAttr "stroke-dasharray" "25,20"; mkAttr "stroke-linecap" "cubic"];
  TEnd "rect";
  TChar "

  ";
  TStart "rect" [mkAttr "x" "220"; mkAttr "y" "220"; mkAttr "width" "145"; mkAttr "height" "145"; mkAttr "fill" "green"; mkAttr "opacity" "0.5"; mkAttr "stroke" "blue"; mkAttr "stroke-width" "12"; mkAttr "stroke-dashoffset" "11"; mkAttr "stroke-dasharray" "25,20"; mkAttr "stroke-linecap" "quadratic"];
  TEnd "rect";
  TChar "


";
  TEnd "svg"]%string.

(** testdata/OpacityStrokeDashTest3.svg *)
Definition t_OpacityStrokeDashTest3 : list token := [
  TStart "svg" [mkAttr "width" "4cm"; mkAttr "height" "4cm"; mkAttr "viewBox" "0 0 400 400"; mkAttr "xmlns" "http://www.w3.org/2000/svg"; mkAttr "version" "1.1"];
  TChar "
  ";
  TStart "title" [];
  TChar "dash lines on squares";
  TEnd "title";
  TChar "
  ";
  TStart "desc" [];
  TChar "dash lines on squares";
  TEnd "desc";
  TChar "

   ";
  TStart "desc" [];
  TChar "Testing dashes around a square.";
  TEnd "desc";
  TChar "

 ";
  TStart "rect" [mkAttr "x" "50"; mkAttr "y" "50"; mkAttr "width" "145"; mkAttr "height" "145"; mkAttr "stroke-leadlinecap" "cubic"; mkAttr "fill" "green"; mkAttr "stroke" "blue"; mkAttr "stroke-width" "12"; mkAttr "stroke-dashoffset" "2"; mkAttr "stroke-dasharray" "25,20"; mkAttr "stroke-linecap" "round"];
  TEnd "rect";
  TChar "
 
  ";
  TStart "rect" [mkAttr "x" "220"; mkAttr "y" "50"; mkAttr "width" "145"; mkAttr "height" "145"; mkAttr "stroke-leadlinecap" "quadratic"; mkAttr "fill" "green"; mkAttr "stroke-opacity" "0.5"; mkAttr "stroke" "blue"; mkAttr "stroke-width" "12"; mkAttr "stroke-dashoffset" "7"; mkAttr "stroke-dasharray" "25,20"; mkAttr "stroke-linecap" "square"];
  TEnd "rect";
  TChar "
 
  ";
  TStart "rect" [mkAttr "x" "50"; mkAttr "y" "220"; mkAttr "width" "145"; mkAttr "height" "145"; mkAttr "stroke-leadlinecap" "square"; mkAttr "fill" "green"; mkAttr "fill-opacity" "0.5"; mkAttr "stroke" "blue"; mkAttr "stroke-width" "12"; mkAttr "stroke-dashoffset" "8"; mkAttr "stroke-dasharray" "25,20"; mkAttr "stroke-linecap" "round"];
  TEnd "rect";
  TChar "

  ";
  TStart "rect" [mkAttr "x" "220"; mkAttr "y" "220"; mkAttr "width" "145"; mkAttr "height" "145"; mkAttr "stroke-leadlinecap" "butt"; mkAttr "fill" "green"; mkAttr "opacity" "0.5"; mkAttr "stroke" "blue"; mkAttr "stroke-width" "12"; mkAttr "stroke-dashoffset" "11"; mkAttr "stroke-dasharray" "25,20"; mkAttr "stroke-linecap" "round"];
  TEnd "rect";
  TChar "


";
  TEnd "svg"]%string.

(** testdata/TestShapes.svg *)
Definition t_TestShapes : list token := [
  TStart "svg" [mkAttr "width" "4cm"; mkAttr "height" "4cm"; mkAttr "viewBox" "0 0 400 400"; mkAttr "xmlns" "http://www.w3.org/2000/svg"; mkAttr "version" "1.1"];
  TChar "
  ";
  TStart "title" [];
  TChar "Example triangle01- simple example of a 'path'";
  TEnd "title";
  TChar "
  ";
  TStart "desc" [];
  TChar "A path that draws a triangle";
  TEnd "desc";
  TChar "

 ";
  TStart "rect" [mkAttr "x" "50"; mkAttr "y" "150"; mkAttr "width" "75"; mkAttr "height" "75"; mkAttr "fill" "cyan"];
  TEnd "rect";
  TChar "
  
  ";
  TStart "circle" [mkAttr "cx" "280"; mkAttr "cy" "170"; mkAttr "r" "40"; mkAttr "fill" "#0FF"];
  TEnd "circle";
  TChar "
 
  ";
  TStart "ellipse" [mkAttr "cx" "150"; mkAttr "cy" "220"; mkAttr "rx" "30"; mkAttr "ry" "20"; mkAttr "fill" "Lemonchiffon"];
  TEnd "ellipse";
  TChar "
  ";
  TStart "polygon" [mkAttr "points" "220,220,280,220, 280,270, 220,270, 250, 245 "; mkAttr "fill" "rgb(0,100%,255)"];
  TEnd "polygon";
  TChar "

    ";
  TStart "polyline" [mkAttr "points" "220,320,280,320, 280,370, 220,370, 250, 345 "; mkAttr "fill" "none"; mkAttr "stroke" "springgreen"; mkAttr "stroke-width" "8"];
  TEnd "polyline";
  TChar "


 ";
  TStart "line" [mkAttr "x1" "340"; mkAttr "y1" "320"; mkAttr "x2" "340"; mkAttr "y2" "380"; mkAttr "stroke" "goldenrod"; mkAttr "stroke-width" "8"; mkAttr "stroke-linecap" "round"];
  TEnd "line";
  TChar "
 ";
  TStart "line" [mkAttr "x1" "60"; mkAttr "y1" "320"; mkAttr "x2" "60"; mkAttr "y2" "380"; mkAttr "stroke" "cornflowerblue"; mkAttr "stroke-width" "8"; mkAttr "stroke-linecap" "butt"];
  TEnd "line";
  TChar "
 ";
  TStart "line" [mkAttr "x1" "380"; mkAttr "y1" "320"; mkAttr "x2" "380"; mkAttr "y2" "380"; mkAttr "stroke" "springgreen"; mkAttr "stroke-width" "8"; mkAttr "stroke-linecap" "square"];
  TEnd "line";
  TChar "

 ";
  TStart "path" [mkAttr "d" "M190, 120 L190, 109"; mkAttr "fill" "none"; mkAttr "stroke" "black"; mkAttr "stroke-width" "22"; mkAttr "stroke-miterlimit" "211.2"; mkAttr "stroke-linejoin" "arc"; mkAttr "stroke-linegap" "round"; mkAttr "stroke-linecap" "round"];
  TEnd "path";
  TChar "

	   ";
  TStart "path" [mkAttr "d" "m 25,130 c 0,-40 50,-75 100,-75 -35,20 -50,50 -50,75z"; mkAttr "fill" "none"; mkAttr "stroke" "springgreen"; mkAttr "stroke-miterlimit" "300"; mkAttr "stroke-linejoin" "miter-clip"; mkAttr "stroke-width" "12"];
  TEnd "path";
  TChar " 
 
";
  TEnd "svg"]%string.

(** testdata/TestShapes2.svg *)
Definition t_TestShapes2 : list token := [
  TStart "svg" [mkAttr "width" "4cm"; mkAttr "height" "4cm"; mkAttr "viewBox" "0 0 600 600"; mkAttr "xmlns" "http://www.w3.org/2000/svg"; mkAttr "version" "1.1"];
  TChar "
  ";
  TStart "title" [];
  TChar "Example triangle01- simple example of a 'path'";
  TEnd "title";
  TChar "
  ";
  TStart "desc" [];
  TChar "A path that draws a triangle";
  TEnd "desc";
  TChar "

 
    ";
  TStart "path" [mkAttr "d" "M87, 212 C 138, 90,  269, 75, 259, 147 C 254, 71, 104,176, 128, 282z"; mkAttr "fill" "none"; mkAttr "stroke" "red"; mkAttr "stroke-miterlimit" "300"; mkAttr "stroke-linecap" "cubic"; mkAttr "stroke-linejoin" "arc"; mkAttr "stroke-width" "8"];
  TEnd "path";
  TChar " 

    ";
  TStart "path" [mkAttr "d" "M87, 212 C 138, 90,  269, 75, 259, 147 C 254, 71, 104,176, 128, 282z"; mkAttr "fill" "none"; mkAttr "stroke" "green"; mkAttr "stroke-miterlimit" "300"; mkAttr "stroke-linecap" "cubic"; mkAttr "stroke-linejoin" "miter"; mkAttr "stroke-width" "8"];
  TEnd "path";
  TChar " 

    ";
  TStart "path" [mkAttr "d" "M197, 312 C 248, 190,  379, 175, 369, 247 C 364, 171, 214,276, 238, 382z"; mkAttr "fill" "none"; mkAttr "stroke" "blue"; mkAttr "stroke-miterlimit" "2"; mkAttr "stroke-linegap" "round"; mkAttr "stroke-linejoin" "miter"; mkAttr "stroke-width" "18"];
  TEnd "path";
  TChar "

    ";
  TStart "path" [mkAttr "d" "M197, 312 C 248, 190,  379, 175, 369, 247 C 364, 171, 214,276, 238, 382z"; mkAttr "fill" "none"; mkAttr "stroke" "red"; mkAttr "stroke-miterlimit" "2"; mkAttr "stroke-linegap" "cubic"; mkAttr "stroke-linejoin" "miter"; mkAttr "stroke-width" "18"];
  TEnd "path";
  TChar "
		
    ";
  TStart "path" [mkAttr "d" "M197, 312 C 248, 190,  379, 175, 369, 247 C 364, 171, 214,276, 238, 382z"; mkAttr "fill" "none"; mkAttr "stroke" "orange"; mkAttr "stroke-miterlimit" "2"; mkAttr "stroke-linegap" "bevel"; mkAttr "stroke-linejoin" "miter"; mkAttr "stroke-width" "18"];
  TEnd "path";
  TChar " 
 		
		

";
  TEnd "svg"]%string.

(** testdata/TestShapes3.svg *)
Definition t_TestShapes3 : list token := [
  TStart "svg" [mkAttr "width" "4cm"; mkAttr "height" "4cm"; mkAttr "viewBox" "0 0 600 600"; mkAttr "xmlns" "http://www.w3.org/2000/svg"; mkAttr "version" "1.1"];
  TChar "
  ";
  TStart "title" [];
  TChar "Example triangle01- simple example of a 'path'";
  TEnd "title";
  TChar "
  ";
  TStart "desc" [];
  TChar "A path that draws a triangle";
  TEnd "desc";
  TChar "

    ";
  TStart "path" [mkAttr "d" "M87, 212 C 138, 90,  269, 75, 259, 147 C 254, 71, 104,176, 128, 282z"; mkAttr "fill" "none"; mkAttr "stroke" "red"; mkAttr "stroke-miterlimit" "300"; mkAttr "stroke-linecap" "cubic"; mkAttr "stroke-linejoin" "arc"; mkAttr "stroke-width" "15"; mkAttr "stroke-dashoffset" "7"; mkAttr "stroke-dasharray" "25,20"];
  TEnd "path";
  TChar "
		
    ";
  TStart "path" [mkAttr "d" "M187, 312 C 238, 190,  369, 175, 359, 247 C 354, 171, 204,276, 228, 382z"; mkAttr "fill" "none"; mkAttr "stroke" "green"; mkAttr "stroke-miterlimit" "300"; mkAttr "stroke-linegap" "cubic"; mkAttr "stroke-linejoin" "miter-clip"; mkAttr "stroke-width" "15"; mkAttr "stroke-dashoffset" "25"; mkAttr "stroke-dasharray" "25,20"; mkAttr "stroke-linecap" "quadratic"];
  TEnd "path";
  TChar "
		
    ";
  TStart "path" [mkAttr "d" "M287, 412 C 338, 290,  469, 275, 459, 347 C 454, 271, 304,376, 328, 482z"; mkAttr "fill" "none"; mkAttr "stroke" "red"; mkAttr "stroke-miterlimit" "300"; mkAttr "stroke-linegap" "cubic"; mkAttr "stroke-linejoin" "arc-clip"; mkAttr "stroke-width" "15"; mkAttr "stroke-dashoffset" "25"; mkAttr "stroke-dasharray" "25,20"; mkAttr "stroke-linecap" "round"];
  TEnd "path";
  TChar "
";
  TEnd "svg"]%string.

(** testdata/TestShapes4.svg *)
Definition t_TestShapes4 : list token := [
  TStart "svg" [mkAttr "width" "4cm"; mkAttr "height" "4cm"; mkAttr "viewBox" "0 0 600 600"; mkAttr "xmlns" "http://www.w3.org/2000/svg"; mkAttr "version" "1.1"];
  TChar "
  ";
  TStart "title" [];
  TChar "Test 4";
  TEnd "title";
  TChar "
  ";
  TStart "desc" [];
  TChar "Test line cap miter and arc clip modes, different cap and gap functions";
  TEnd "desc";
  TChar "


   ";
  TStart "path" [mkAttr "d" "M287, 412 C 338, 290,  469, 275, 459, 347 C 454, 271, 260,376, 328, 482z"; mkAttr "fill" "none"; mkAttr "stroke" "red"; mkAttr "stroke-miterlimit" "8"; mkAttr "stroke-linegap" "cubic"; mkAttr "stroke-linejoin" "arc-clip"; mkAttr "stroke-width" "30"];
  TEnd "path";
  TChar " 
   ";
  TStart "path" [mkAttr "d" "M287, 412 C 338, 290,  469, 275, 459, 347 C 454, 271, 260,376, 328, 482z"; mkAttr "fill" "none"; mkAttr "stroke" "orange"; mkAttr "stroke-miterlimit" "4"; mkAttr "stroke-linegap" "cubic"; mkAttr "stroke-linejoin" "arc-clip"; mkAttr "stroke-width" "30"];
  TEnd "path";
  TChar " 
   ";
  TStart "path" [mkAttr "d" "M287, 412 C 338, 290,  469, 275, 459, 347 C 454, 271, 260,376, 328, 482z"; mkAttr "fill" "none"; mkAttr "stroke" "yellow"; mkAttr "stroke-miterlimit" "2"; mkAttr "stroke-linegap" "cubic"; mkAttr "stroke-linejoin" "arc-clip"; mkAttr "stroke-width" "30"];
  TEnd "path";
  TChar " 
		
   ";
  TStart "path" [mkAttr "d" "M187, 312 C 238, 190,  369, 175, 359, 247 C 354, 171, 160,276, 228, 382z"; mkAttr "fill" "none"; mkAttr "stroke" "green"; mkAttr "stroke-miterlimit" "8"; mkAttr "stroke-linegap" "round"; mkAttr "stroke-linejoin" "miter-clip"; mkAttr "stroke-width" "30"];
  TEnd "path";
  TChar " 
   ";
  TStart "path" [mkAttr "d" "M187, 312 C 238, 190,  369, 175, 359, 247 C 354, 171, 160,276, 228, 382z"; mkAttr "fill" "none"; mkAttr "stroke" "lime"; mkAttr "stroke-miterlimit" "4"; mkAttr "stroke-linegap" "round"; mkAttr "stroke-linejoin" "miter-clip"; mkAttr "stroke-width" "30"];
  TEnd "path";
  TChar " 
   ";
  TStart "path" [mkAttr "d" "M187, 312 C 238, 190,  369, 175, 359, 247 C 354, 171, 160,276, 228, 382z"; mkAttr "fill" "none"; mkAttr "stroke" "blue"; mkAttr "stroke-miterlimit" "2"; mkAttr "stroke-linegap" "round"; mkAttr "stroke-linejoin" "miter-clip"; mkAttr "stroke-width" "30"];
  TEnd "path";
  TChar " 

 
   ";
  TStart "path" [mkAttr "d" "M87, 212 C 138, 090,  269, 075, 259, 147 C 254, 081, 060,176, 128, 282z"; mkAttr "fill" "none"; mkAttr "stroke" "green"; mkAttr "stroke-miterlimit" "20"; mkAttr "stroke-linecap" "cubic"; mkAttr "stroke-linejoin" "miter"; mkAttr "stroke-width" "30"];
  TEnd "path";
  TChar " 

    ";
  TStart "path" [mkAttr "d" "M87, 212 C 138, 090,  269, 075, 259, 147 C 254, 081, 060,176, 128, 282z"; mkAttr "fill" "none"; mkAttr "stroke" "red"; mkAttr "stroke-miterlimit" "20"; mkAttr "stroke-linecap" "cubic"; mkAttr "stroke-linejoin" "arc"; mkAttr "stroke-width" "30"];
  TEnd "path";
  TChar " 
		
  ";
  TStart "path" [mkAttr "d" "M87, 212 C 138, 090,  269, 075, 259, 147 C 254, 081, 060,176, 128, 282z"; mkAttr "fill" "none"; mkAttr "stroke" "orange"; mkAttr "stroke-miterlimit" "20"; mkAttr "stroke-linecap" "cubic"; mkAttr "stroke-linejoin" "arc"; mkAttr "stroke-width" "15"];
  TEnd "path";
  TChar " 
		
   ";
  TStart "path" [mkAttr "d" "M87, 212 C 138, 090,  269, 075, 259, 147 C 254, 081, 060,176, 128, 282z"; mkAttr "fill" "none"; mkAttr "stroke" "yellow"; mkAttr "stroke-miterlimit" "20"; mkAttr "stroke-linecap" "cubic"; mkAttr "stroke-linejoin" "arc"; mkAttr "stroke-width" "10"];
  TEnd "path";
  TChar " 
 
   ";
  TStart "path" [mkAttr "d" "M87, 212 C 138, 090,  269, 075, 259, 147 C 254, 081, 060,176, 128, 282z"; mkAttr "fill" "none"; mkAttr "stroke" "black"; mkAttr "stroke-miterlimit" "1"; mkAttr "stroke-linecap" "cubic"; mkAttr "stroke-linejoin" "arc"; mkAttr "stroke-width" "2"];
  TEnd "path";
  TChar " 

 ";
  TStart "path" [mkAttr "d" "M325, 20 L 425, 35,  325, 50 "; mkAttr "fill" "none"; mkAttr "stroke" "black"; mkAttr "stroke-miterlimit" "1"; mkAttr "stroke-linecap" "round"; mkAttr "stroke-linegap" "round"; mkAttr "stroke-linejoin" "miter"; mkAttr "stroke-width" "20"];
  TEnd "path";
  TChar " 

  ";
  TStart "path" [mkAttr "d" "M325, 75 L 425, 90,  325, 105 "; mkAttr "fill" "none"; mkAttr "stroke" "black"; mkAttr "stroke-miterlimit" "1"; mkAttr "stroke-linecap" "cubic"; mkAttr "stroke-linegap" "cubic"; mkAttr "stroke-linejoin" "miter"; mkAttr "stroke-width" "20"];
  TEnd "path";
  TChar " 

 ";
  TStart "path" [mkAttr "d" "M325, 130 L 425, 145, 325, 160 "; mkAttr "fill" "none"; mkAttr "stroke" "black"; mkAttr "stroke-miterlimit" "1"; mkAttr "stroke-linecap" "quadratic"; mkAttr "stroke-linegap" "quadratic"; mkAttr "stroke-linejoin" "miter"; mkAttr "stroke-width" "20"];
  TEnd "path";
  TChar " 

 ";
  TStart "path" [mkAttr "d" "M450, 20 L 574, 35,  450, 50 "; mkAttr "fill" "none"; mkAttr "stroke" "black"; mkAttr "stroke-miterlimit" "1"; mkAttr "stroke-linecap" "square"; mkAttr "stroke-linejoin" "miter"; mkAttr "stroke-width" "20"];
  TEnd "path";
  TChar " 


";
  TEnd "svg"]%string.

(** testdata/TestShapes5.svg *)
Definition t_TestShapes5 : list token := [
  TStart "svg" [mkAttr "width" "4cm"; mkAttr "height" "4cm"; mkAttr "viewBox" "0 0 600 600"; mkAttr "xmlns" "http://www.w3.org/2000/svg"; mkAttr "version" "1.1"];
  TChar "
  ";
  TStart "title" [];
  TChar "Example letter stroking";
  TEnd "title";
  TChar "
  ";
  TStart "desc" [];
  TChar "Example letter stroking";
  TEnd "desc";
  TChar "

";
  TStart "path" [mkAttr "d" "M210.08,222.97L192.55,244.95Q146.53,229.95,115.55,209.55Q102.50,211.00,95.38,211.00Q56.09,211.00,31.17,182.33Q6.27,153.66,6.27,108.44Q6.27,61.89,31.44,33.94Q56.62,6.00,98.55,6.00Q141.27,6.00,166.64,33.88Q192.02,61.77,192.02,108.70Q192.02,175.67,140.86,202.05Q173.42,216.66,210.08,222.97zM162.22,109.69Q162.22,70.11,145.61,48.55Q129.00,27.00,98.42,27.00Q69.14,27.00,52.53,48.62Q35.92,70.25,35.92,108.50Q35.92,146.75,52.53,168.38Q69.14,190.00,98.42,190.00Q128.34,190.00,145.28,168.70Q162.22,147.41,162.22,109.69z"; mkAttr "fill" "red"; mkAttr "stroke" "none"; mkAttr "stroke-miterlimit" "1.0"; mkAttr "stroke-linegap" "quadratic"; mkAttr "stroke-linejoin" "arc-clip"; mkAttr "stroke-width" "18"; mkAttr "stroke-linecap" "round"; mkAttr "stroke-leadlinecap" "butt"];
  TEnd "path";
  TChar "

";
  TStart "path" [mkAttr "d" "M210.08,222.97L192.55,244.95Q146.53,229.95,115.55,209.55Q102.50,211.00,95.38,211.00Q56.09,211.00,31.17,182.33Q6.27,153.66,6.27,108.44Q6.27,61.89,31.44,33.94Q56.62,6.00,98.55,6.00Q141.27,6.00,166.64,33.88Q192.02,61.77,192.02,108.70Q192.02,175.67,140.86,202.05Q173.42,216.66,210.08,222.97zM162.22,109.69Q162.22,70.11,145.61,48.55Q129.00,27.00,98.42,27.00Q69.14,27.00,52.53,48.62Q35.92,70.25,35.92,108.50Q35.92,146.75,52.53,168.38Q69.14,190.00,98.42,190.00Q128.34,190.00,145.28,168.70Q162.22,147.41,162.22,109.69z"; mkAttr "fill" "none"; mkAttr "stroke" "yellow"; mkAttr "stroke-miterlimit" "1"; mkAttr "stroke-linegap" "cubic"; mkAttr "stroke-linejoin" "arc-clip"; mkAttr "stroke-width" "14"; mkAttr "stroke-linecap" "square"; mkAttr "stroke-dashoffset" "28"; mkAttr "stroke-dasharray" "38,20"];
  TEnd "path";
  TChar "

";
  TStart "path" [mkAttr "d" "M210.08,222.97L192.55,244.95Q146.53,229.95,115.55,209.55Q102.50,211.00,95.38,211.00Q56.09,211.00,31.17,182.33Q6.27,153.66,6.27,108.44Q6.27,61.89,31.44,33.94Q56.62,6.00,98.55,6.00Q141.27,6.00,166.64,33.88Q192.02,61.77,192.02,108.70Q192.02,175.67,140.86,202.05Q173.42,216.66,210.08,222.97zM162.22,109.69Q162.22,70.11,145.61,48.55Q129.00,27.00,98.42,27.00Q69.14,27.00,52.53,48.62Q35.92,70.25,35.92,108.50Q35.92,146.75,52.53,168.38Q69.14,190.00,98.42,190.00Q128.34,190.00,145.28,168.70Q162.22,147.41,162.22,109.69z"; mkAttr "fill" "none"; mkAttr "stroke" "blue"; mkAttr "stroke-miterlimit" "1"; mkAttr "stroke-linegap" "cubic"; mkAttr "stroke-linejoin" "arc-clip"; mkAttr "stroke-width" "8"; mkAttr "stroke-linecap" "round"; mkAttr "stroke-dashoffset" "-1"; mkAttr "stroke-dasharray" "38,20"];
  TEnd "path";
  TChar "

";
  TStart "path" [mkAttr "d" "M210.08,222.97L192.55,244.95Q146.53,229.95,115.55,209.55Q102.50,211.00,95.38,211.00Q56.09,211.00,31.17,182.33Q6.27,153.66,6.27,108.44Q6.27,61.89,31.44,33.94Q56.62,6.00,98.55,6.00Q141.27,6.00,166.64,33.88Q192.02,61.77,192.02,108.70Q192.02,175.67,140.86,202.05Q173.42,216.66,210.08,222.97zM162.22,109.69Q162.22,70.11,145.61,48.55Q129.00,27.00,98.42,27.00Q69.14,27.00,52.53,48.62Q35.92,70.25,35.92,108.50Q35.92,146.75,52.53,168.38Q69.14,190.00,98.42,190.00Q128.34,190.00,145.28,168.70Q162.22,147.41,162.22,109.69z"; mkAttr "fill" "none"; mkAttr "stroke" "white"; mkAttr "stroke-miterlimit" "1"; mkAttr "stroke-linegap" "cubic"; mkAttr "stroke-linejoin" "arc-clip"; mkAttr "stroke-width" "3"; mkAttr "stroke-linecap" "round"; mkAttr "stroke-dashoffset" "-1"; mkAttr "stroke-dasharray" "38,20"];
  TEnd "path";
  TChar "

";
  TStart "path" [mkAttr "d" "M210.08,222.97L192.55,244.95Q146.53,229.95,115.55,209.55Q102.50,211.00,95.38,211.00Q56.09,211.00,31.17,182.33Q6.27,153.66,6.27,108.44Q6.27,61.89,31.44,33.94Q56.62,6.00,98.55,6.00Q141.27,6.00,166.64,33.88Q192.02,61.77,192.02,108.70Q192.02,175.67,140.86,202.05Q173.42,216.66,210.08,222.97zM162.22,109.69Q162.22,70.11,145.61,48.55Q129.00,27.00,98.42,27.00Q69.14,27.00,52.53,48.62Q35.92,70.25,35.92,108.50Q35.92,146.75,52.53,168.38Q69.14,190.00,98.42,190.00Q128.34,190.00,145.28,168.70Q162.22,147.41,162.22,109.69z"; mkAttr "fill" "red"; mkAttr "opacity" "0.50"];
  TEnd "path";
  TChar "


";
  TEnd "svg"]%string.

(** testdata/TestShapes6.svg *)
Definition t_TestShapes6 : list token := [
  TOther;
  TStart "svg" [mkAttr "width" "500"; mkAttr "height" "500"; mkAttr "xmlns" "http://www.w3.org/2000/svg"; mkAttr "xlink" "http://www.w3.org/1999/xlink"];
  TChar "

";
  TStart "radialGradient" [mkAttr "id" "rg"; mkAttr "cx" "50%"; mkAttr "cy" "50%"; mkAttr "fx" "30%"; mkAttr "fy" "30%"; mkAttr "r" "30%"; mkAttr "gradientUnits" "objectBoundingBox"; mkAttr "gradientTransform" " rotate(-35) "; mkAttr "spreadMethod" "reflect"];
  TChar "
";
  TStart "stop" [mkAttr "offset" "1%"; mkAttr "stop-color" "powderblue"; mkAttr "stop-opacity" "1.00"];
  TEnd "stop";
  TChar "
";
  TStart "stop" [mkAttr "offset" "10%"; mkAttr "stop-color" "silver"; mkAttr "stop-opacity" "1.00"];
  TEnd "stop";
  TChar "
";
  TStart "stop" [mkAttr "offset" "30%"; mkAttr "stop-color" "darkblue"; mkAttr "stop-opacity" "1.00"];
  TEnd "stop";
  TChar "
";
  TStart "stop" [mkAttr "offset" "40%"; mkAttr "stop-color" "black"; mkAttr "stop-opacity" "1.00"];
  TEnd "stop";
  TChar "
";
  TStart "stop" [mkAttr "offset" "100%"; mkAttr "stop-color" "lime"; mkAttr "stop-opacity" "0.50"];
  TEnd "stop";
  TChar "
";
  TEnd "radialGradient";
  TChar "


";
  TStart "radialGradient" [mkAttr "id" "rg2"; mkAttr "cx" "50%"; mkAttr "cy" "50%"; mkAttr "r" "40%"; mkAttr "gradientUnits" "objectBoundingBox"; mkAttr "spreadMethod" "repeat"];
  TChar "
";
  TStart "stop" [mkAttr "offset" "10%"; mkAttr "stop-color" "goldenrod"];
  TEnd "stop";
  TChar "
";
  TStart "stop" [mkAttr "offset" "30%"; mkAttr "stop-color" "seagreen"];
  TEnd "stop";
  TChar "
";
  TStart "stop" [mkAttr "offset" "50%"; mkAttr "stop-color" "cyan"];
  TEnd "stop";
  TChar "
";
  TStart "stop" [mkAttr "offset" "70%"; mkAttr "stop-color" "black"];
  TEnd "stop";
  TChar "
";
  TStart "stop" [mkAttr "offset" "100%"; mkAttr "stop-color" "orange"];
  TEnd "stop";
  TChar "
";
  TEnd "radialGradient";
  TChar "

";
  TStart "linearGradient" [mkAttr "id" "lg"; mkAttr "x1" "0%"; mkAttr "y1" "0%"; mkAttr "x2" "0%"; mkAttr "y2" "100%"; mkAttr "spreadMethod" "pad"; mkAttr "gradientTransform" "rotate(25) "];
  TChar "
";
  TStart "stop" [mkAttr "offset" "0%"; mkAttr "stop-color" "green"; mkAttr "stop-opacity" "1.00"];
  TEnd "stop";
  TChar "
";
  TStart "stop" [mkAttr "offset" "50%"; mkAttr "stop-color" "red"; mkAttr "stop-opacity" "1.00"];
  TEnd "stop";
  TChar "
";
  TStart "stop" [mkAttr "offset" "100%"; mkAttr "stop-color" "blue"; mkAttr "stop-opacity" "1.00"];
  TEnd "stop";
  TChar "
";
  TEnd "linearGradient";
  TChar "



";
  TStart "ellipse" [mkAttr "cx" "300"; mkAttr "cy" "150"; mkAttr "rx" "120"; mkAttr "ry" "100"; mkAttr "style" "fill:url(#rg2)"];
  TEnd "ellipse";
  TChar " 

";
  TStart "rect" [mkAttr "x" "100"; mkAttr "y" "340"; mkAttr "width" "200"; mkAttr "height" "140"; mkAttr "style" "fill:url(#lg)"];
  TEnd "rect";
  TChar " 
 ";
  TStart "ellipse" [mkAttr "cx" "350"; mkAttr "cy" "350"; mkAttr "rx" "80"; mkAttr "ry" "100"; mkAttr "style" "fill:url(#rg)"];
  TEnd "ellipse";
  TChar " 
 
";
  TStart "ellipse" [mkAttr "cx" "250"; mkAttr "cy" "350"; mkAttr "rx" "80"; mkAttr "ry" "100"; mkAttr "opacity" "0.3"; mkAttr "style" "fill:url(#rg)"];
  TEnd "ellipse";
  TChar " 


 ";
  TStart "path" [mkAttr "d" "M87, 212 C 138, 090,  269, 075, 259, 147 C 254, 081, 080,176, 128, 282z"; mkAttr "fill" "none"; mkAttr "stroke" "url(#rg)"; mkAttr "stroke-miterlimit" "20"; mkAttr "stroke-linecap" "cubic"; mkAttr "stroke-linejoin" "arc"; mkAttr "stroke-width" "15"];
  TEnd "path";
  TChar " 

";
  TEnd "svg"]%string.

(** testdata/TestPercentages.svg *)
Definition t_TestPercentages : list token := [
  TOther;
  TStart "svg" [mkAttr "width" "400px"; mkAttr "height" "200px"; mkAttr "viewBox" "0 0 4000 2000"; mkAttr "xmlns" "http://www.w3.org/2000/svg"];
  TChar "
  ";
  TStart "title" [];
  TChar "Example Units";
  TEnd "title";
  TChar "
  ";
  TStart "desc" [];
  TChar "Illustrates various units options";
  TEnd "desc";
  TChar "

  ";
  TOther;
  TChar "
  ";
  TStart "rect" [mkAttr "x" "5"; mkAttr "y" "5"; mkAttr "width" "3990"; mkAttr "height" "1990"; mkAttr "fill" "none"; mkAttr "stroke" "blue"; mkAttr "stroke-width" "10"];
  TEnd "rect";
  TChar "

  ";
  TStart "g" [mkAttr "fill" "blue"; mkAttr "stroke" "red"; mkAttr "font-family" "Verdana"; mkAttr "font-size" "150"];
  TChar "
    ";
  TOther;
  TChar "
    ";
  TStart "g" [mkAttr "transform" "translate(400,0)"];
  TChar "
      ";
  TStart "text" [mkAttr "x" "-50"; mkAttr "y" "300"; mkAttr "fill" "black"; mkAttr "stroke" "none"];
  TChar "Abs. units:";
  TEnd "text";
  TChar "
      ";
  TStart "rect" [mkAttr "x" "0"; mkAttr "y" "400"; mkAttr "width" "4in"; mkAttr "height" "2in"; mkAttr "stroke-width" ".4in"];
  TEnd "rect";
  TChar "
      ";
  TStart "rect" [mkAttr "x" "0"; mkAttr "y" "750"; mkAttr "width" "384"; mkAttr "height" "192"; mkAttr "stroke-width" "38.4"];
  TEnd "rect";
  TChar "
      ";
  TStart "g" [mkAttr "transform" "scale(2)"];
  TChar "
        ";
  TStart "rect" [mkAttr "x" "0"; mkAttr "y" "600"; mkAttr "width" "4in"; mkAttr "height" "2in"; mkAttr "stroke-width" ".4in"];
  TEnd "rect";
  TChar "
      ";
  TEnd "g";
  TChar "
    ";
  TEnd "g";
  TChar "

    ";
  TOther;
  TChar "
    ";
  TOther;
  TChar "

    ";
  TOther;
  TChar "
    ";
  TStart "g" [mkAttr "transform" "translate(2800,0)"];
  TChar "
      ";
  TStart "text" [mkAttr "x" "-50"; mkAttr "y" "300"; mkAttr "fill" "black"; mkAttr "stroke" "none"];
  TChar "Percentages:";
  TEnd "text";
  TChar "
      ";
  TStart "rect" [mkAttr "x" "0"; mkAttr "y" "400"; mkAttr "width" "10%"; mkAttr "height" "10%"; mkAttr "stroke-width" "1%"];
  TEnd "rect";
  TChar "
      ";
  TStart "rect" [mkAttr "x" "0"; mkAttr "y" "750"; mkAttr "width" "400"; mkAttr "height" "200"; mkAttr "stroke-width" "31.62"];
  TEnd "rect";
  TChar "
      ";
  TStart "g" [mkAttr "transform" "scale(2)"];
  TChar "
        ";
  TStart "rect" [mkAttr "x" "0"; mkAttr "y" "600"; mkAttr "width" "10%"; mkAttr "height" "10%"; mkAttr "stroke-width" "1%"];
  TEnd "rect";
  TChar "
      ";
  TEnd "g";
  TChar "
    ";
  TEnd "g";
  TChar "
  ";
  TEnd "g";
  TChar "
";
  TEnd "svg"]%string.

(** testdata/avatar.svg *)
Definition t_avatar : list token := [
  TStart "svg" [mkAttr "dc" "http://purl.org/dc/elements/1.1/"; mkAttr "cc" "http://creativecommons.org/ns#"; mkAttr "rdf" "http://www.w3.org/1999/02/22-rdf-syntax-ns#"; mkAttr "svg" "http://www.w3.org/2000/svg"; mkAttr "xmlns" "http://www.w3.org/2000/svg"; mkAttr "viewBox" "0 0 180 180"];
  TChar "
    ";
  TStart "metadata" [];
  TChar "
        ";
  TStart "RDF" [];
  TChar "
            ";
  TStart "Work" [];
  TChar "
                ";
  TStart "format" [];
  TChar "image/svg+xml";
  TEnd "format";
  TChar "
                ";
  TStart "type" [mkAttr "resource" "http://purl.org/dc/dcmitype/StillImage"];
  TEnd "type";
  TChar "
                ";
  TStart "title" [];
  TChar "Bottts";
  TEnd "title";
  TChar "
                ";
  TStart "creator" [];
  TChar "
                    ";
  TStart "Agent" [];
  TChar "
                        ";
  TStart "title" [];
  TChar "Pablo Stanley";
  TEnd "title";
  TChar "
                    ";
  TEnd "Agent";
  TChar "
                ";
  TEnd "creator";
  TChar "
                ";
  TStart "source" [];
  TChar "https://bottts.com/";
  TEnd "source";
  TChar "
                ";
  TStart "license" [mkAttr "resource" "https://bottts.com/"];
  TEnd "license";
  TChar "
                ";
  TStart "contributor" [];
  TChar "
                    ";
  TStart "Agent" [];
  TChar "
                        ";
  TStart "title" [];
  TChar "Florian Körner";
  TEnd "title";
  TChar "
                    ";
  TEnd "Agent";
  TChar "
                ";
  TEnd "contributor";
  TChar "
            ";
  TEnd "Work";
  TChar "
        ";
  TEnd "RDF";
  TChar "
    ";
  TEnd "metadata";
  TChar "
    ";
  TStart "mask" [mkAttr "id" "avatarsRadiusMask"];
  TChar "
        ";
  TStart "rect" [mkAttr "width" "180"; mkAttr "height" "180"; mkAttr "rx" "0"; mkAttr "ry" "0"; mkAttr "x" "0"; mkAttr "y" "0"; mkAttr "fill" "#fff"];
  TEnd "rect";
  TChar "
    ";
  TEnd "mask";
  TChar "
    ";
  TStart "g" [mkAttr "mask" "url(#avatarsRadiusMask)"];
  TChar "
        ";
  TStart "g" [mkAttr "transform" "translate(0, 66)"];
  TChar "
            ";
  TStart "path" [mkAttr "fill-rule" "evenodd"; mkAttr "clip-rule" "evenodd"; mkAttr "d" "M134.436 10.184C134 11.0397 134 12.1598 134 14.4V61.6C134 63.8402 134 64.9603 134.436 65.816C134.819 66.5686 135.431 67.1805 136.184 67.564C137.04 68 138.16 68 140.4 68H163.6C165.84 68 166.96 68 167.816 67.564C168.569 67.1805 169.181 66.5686 169.564 65.816C170 64.9603 170 63.8402 170 61.6V52.9944C171.35 52.9761 172.161 52.8979 172.816 52.564C173.569 52.1805 174.181 51.5686 174.564 50.816C175 49.9603 175 48.8402 175 46.6V29.4C175 27.1598 175 26.0397 174.564 25.184C174.181 24.4314 173.569 23.8195 172.816 23.436C172.161 23.1021 171.35 23.0239 170 23.0056V14.4C170 12.1598 170 11.0397 169.564 10.184C169.181 9.43139 168.569 8.81947 167.816 8.43597C166.96 8 165.84 8 163.6 8H140.4C138.16 8 137.04 8 136.184 8.43597C135.431 8.81947 134.819 9.43139 134.436 10.184ZM20.436 17.184C20 18.0397 20 19.1598 20 21.4V31H16.4C14.1598 31 13.0397 31 12.184 31.436C11.4314 31.8195 10.8195 32.4314 10.436 33.184C10 34.0397 10 35.1598 10 37.4V54.6C10 56.8402 10 57.9603 10.436 58.816C10.8195 59.5686 11.4314 60.1805 12.184 60.564C13.0397 61 14.1598 61 16.4 61H39.6C41.8402 61 42.9603 61 43.816 60.564C44.5686 60.1805 45.1805 59.5686 45.564 58.816C46 57.9603 46 56.8402 46 54.6V38.6V37.4V21.4C46 19.1598 46 18.0397 45.564 17.184C45.1805 16.4314 44.5686 15.8195 43.816 15.436C42.9603 15 41.8402 15 39.6 15H26.4C24.1598 15 23.0397 15 22.184 15.436C21.4314 15.8195 20.8195 16.4314 20.436 17.184Z"; mkAttr "fill" "#0076DE"];
  TEnd "path";
  TChar "
            ";
  TStart "mask" [mkAttr "id" "sidesSquareAssymetricMask0"; mkAttr "mask-type" "alpha"; mkAttr "maskUnits" "userSpaceOnUse"; mkAttr "x" "10"; mkAttr "y" "8"; mkAttr "width" "165"; mkAttr "height" "60"];
  TChar "
                ";
  TStart "path" [mkAttr "fill-rule" "evenodd"; mkAttr "clip-rule" "evenodd"; mkAttr "d" "M134.436 10.184C134 11.0397 134 12.1598 134 14.4V61.6C134 63.8402 134 64.9603 134.436 65.816C134.819 66.5686 135.431 67.1805 136.184 67.564C137.04 68 138.16 68 140.4 68H163.6C165.84 68 166.96 68 167.816 67.564C168.569 67.1805 169.181 66.5686 169.564 65.816C170 64.9603 170 63.8402 170 61.6V52.9944C171.35 52.9761 172.161 52.8979 172.816 52.564C173.569 52.1805 174.181 51.5686 174.564 50.816C175 49.9603 175 48.8402 175 46.6V29.4C175 27.1598 175 26.0397 174.564 25.184C174.181 24.4314 173.569 23.8195 172.816 23.436C172.161 23.1021 171.35 23.0239 170 23.0056V14.4C170 12.1598 170 11.0397 169.564 10.184C169.181 9.43139 168.569 8.81947 167.816 8.43597C166.96 8 165.84 8 163.6 8H140.4C138.16 8 137.04 8 136.184 8.43597C135.431 8.81947 134.819 9.43139 134.436 10.184ZM20.436 17.184C20 18.0397 20 19.1598 20 21.4V31H16.4C14.1598 31 13.0397 31 12.184 31.436C11.4314 31.8195 10.8195 32.4314 10.436 33.184C10 34.0397 10 35.1598 10 37.4V54.6C10 56.8402 10 57.9603 10.436 58.816C10.8195 59.5686 11.4314 60.1805 12.184 60.564C13.0397 61 14.1598 61 16.4 61H39.6C41.8402 61 42.9603 61 43.816 60.564C44.5686 60.1805 45.1805 59.5686 45.564 58.816C46 57.9603 46 56.8402 46 54.6V38.6V37.4V21.4C46 19.1598 46 18.0397 45.564 17.184C45.1805 16.4314 44.5686 15.8195 43.816 15.436C42.9603 15 41.8402 15 39.6 15H26.4C24.1598 15 23.0397 15 22.184 15.436C21.4314 15.8195 20.8195 16.4314 20.436 17.184Z"; mkAttr "fill" "white"];
  TEnd "path";
  TChar "
            ";
  TEnd "mask";
  TChar "
            ";
  TStart "g" [mkAttr "mask" "url(#sidesSquareAssymetricMask0)"];
  TChar "
                ";
  TStart "rect" [mkAttr "width" "180"; mkAttr "height" "76"; mkAttr "fill" "#7E57C2"];
  TEnd "rect";
  TChar "
                ";
  TStart "rect" [mkAttr "y" "47"; mkAttr "width" "180"; mkAttr "height" "29"; mkAttr "fill" "black"; mkAttr "fill-opacity" "0.1"];
  TEnd "rect";
  TChar "
                ";
  TStart "path" [mkAttr "fill-rule" "evenodd"; mkAttr "clip-rule" "evenodd"; mkAttr "d" "M161 25C163.761 25 166 22.7614 166 20C166 17.2386 163.761 15 161 15C158.239 15 156 17.2386 156 20C156 22.7614 158.239 25 161 25Z"; mkAttr "fill" "white"; mkAttr "fill-opacity" "0.6"];
  TEnd "path";
  TChar "
                ";
  TStart "path" [mkAttr "fill-rule" "evenodd"; mkAttr "clip-rule" "evenodd"; mkAttr "d" "M161 41C163.761 41 166 38.7614 166 36C166 33.2386 163.761 31 161 31C158.239 31 156 33.2386 156 36C156 38.7614 158.239 41 161 41Z"; mkAttr "fill" "white"; mkAttr "fill-opacity" "0.6"];
  TEnd "path";
  TChar "
            ";
  TEnd "g";
  TChar "
        ";
  TEnd "g";
  TChar "
        ";
  TStart "g" [mkAttr "transform" "translate(41, 0)"];
  TChar "
            ";
  TStart "path" [mkAttr "fill-rule" "evenodd"; mkAttr "clip-rule" "evenodd"; mkAttr "d" "M43.7993 28.3969C35.9888 20.5865 35.9888 7.92316 43.7993 0.112671L57.2343 13.5477L63.6874 7.09463C62.7814 5.56072 62.9874 3.55192 64.3054 2.23399C65.8675 0.671894 68.4001 0.671894 69.9622 2.23399C71.5243 3.79609 71.5243 6.32875 69.9622 7.89085C68.6443 9.20878 66.6355 9.41478 65.1016 8.50884L58.6485 14.9619L72.0835 28.3969C66.6332 33.8472 58.8199 35.4942 51.9414 33.3379V52.1127H47.9414V31.581C46.4606 30.7252 45.0661 29.6638 43.7993 28.3969Z"; mkAttr "fill" "#E1E6E8"];
  TEnd "path";
  TChar "
            ";
  TStart "mask" [mkAttr "id" "topRadarMask0"; mkAttr "mask-type" "alpha"; mkAttr "maskUnits" "userSpaceOnUse"; mkAttr "x" "37"; mkAttr "y" "0"; mkAttr "width" "36"; mkAttr "height" "53"];
  TChar "
                ";
  TStart "path" [mkAttr "fill-rule" "evenodd"; mkAttr "clip-rule" "evenodd"; mkAttr "d" "M43.7993 28.3969C35.9888 20.5865 35.9888 7.92316 43.7993 0.112671L57.2343 13.5477L63.6874 7.09463C62.7814 5.56072 62.9874 3.55192 64.3054 2.23399C65.8675 0.671894 68.4001 0.671894 69.9622 2.23399C71.5243 3.79609 71.5243 6.32875 69.9622 7.89085C68.6443 9.20878 66.6355 9.41478 65.1016 8.50884L58.6485 14.9619L72.0835 28.3969C66.6332 33.8472 58.8199 35.4942 51.9414 33.3379V52.1127H47.9414V31.581C46.4606 30.7252 45.0661 29.6638 43.7993 28.3969Z"; mkAttr "fill" "white"];
  TEnd "path";
  TChar "
            ";
  TEnd "mask";
  TChar "
            ";
  TStart "g" [mkAttr "mask" "url(#topRadarMask0)"];
  TChar "
                ";
  TStart "rect" [mkAttr "width" "100"; mkAttr "height" "52"; mkAttr "fill" "#7E57C2"];
  TEnd "rect";
  TChar "
                ";
  TStart "path" [mkAttr "fill-rule" "evenodd"; mkAttr "clip-rule" "evenodd"; mkAttr "d" "M43.7988 0.112671C35.9883 7.92316 35.9883 20.5865 43.7988 28.3969C51.6093 36.2074 64.2726 36.2074 72.0831 28.3969"; mkAttr "fill" "white"; mkAttr "fill-opacity" "0.2"];
  TEnd "path";
  TChar "
                ";
  TStart "path" [mkAttr "fill-rule" "evenodd"; mkAttr "clip-rule" "evenodd"; mkAttr "d" "M64.3054 7.89092C65.8675 9.45302 68.4001 9.45302 69.9622 7.89092C71.5243 6.32882 71.5243 3.79616 69.9622 2.23407C68.4001 0.67197 65.8675 0.67197 64.3054 2.23407C62.7433 3.79616 62.7433 6.32882 64.3054 7.89092Z"; mkAttr "fill" "white"; mkAttr "fill-opacity" "0.8"];
  TEnd "path";
  TChar "
            ";
  TEnd "g";
  TChar "
        ";
  TEnd "g";
  TChar "
        ";
  TStart "g" [mkAttr "transform" "translate(25, 44)"];
  TChar "
            ";
  TStart "path" [mkAttr "fill-rule" "evenodd"; mkAttr "clip-rule" "evenodd"; mkAttr "d" "M66 0C124.352 0 130.001 40.6854 130 78C129.999 111.315 104.534 120 66 120C28.5387 120 0 111.315 0 78C0 40.6854 7.64843 0 66 0Z"; mkAttr "fill" "black"; mkAttr "fill-opacity" "0.8"];
  TEnd "path";
  TChar "
            ";
  TStart "mask" [mkAttr "id" "faceRound01Mask0"; mkAttr "mask-type" "alpha"; mkAttr "maskUnits" "userSpaceOnUse"; mkAttr "x" "0"; mkAttr "y" "0"; mkAttr "width" "130"; mkAttr "height" "120"];
  TChar "
                ";
  TStart "path" [mkAttr "fill-rule" "evenodd"; mkAttr "clip-rule" "evenodd"; mkAttr "d" "M66 0C124.352 0 130.001 40.6854 130 78C129.999 111.315 104.534 120 66 120C28.5387 120 0 111.315 0 78C0 40.6854 7.64843 0 66 0Z"; mkAttr "fill" "white"];
  TEnd "path";
  TChar "
            ";
  TEnd "mask";
  TChar "
            ";
  TStart "g" [mkAttr "mask" "url(#faceRound01Mask0)"];
  TChar "
                ";
  TStart "rect" [mkAttr "x" "-4"; mkAttr "y" "-2"; mkAttr "width" "138"; mkAttr "height" "124"; mkAttr "fill" "#5E35B1"];
  TEnd "rect";
  TChar "
                ";
  TStart "path" [mkAttr "fill-rule" "evenodd"; mkAttr "clip-rule" "evenodd"; mkAttr "d" "M141.942 1.99261C142.885 1.84335 143.725 1.51627 144.462 1.01137C144.641 0.98607 144.904 0.945398 145.233 0.894564C147.954 0.474318 155.171 -0.640471 156.477 0.495865C157.33 1.23727 156.947 3.87556 156.671 5.77254C156.566 6.49296 156.477 7.10646 156.477 7.46854C155.149 7.5314 154.142 6.06775 153.157 4.63726C151.696 2.51506 150.285 0.465817 147.954 3.58203C146.86 5.0429 147.113 6.88681 147.369 8.76079C147.639 10.7369 147.914 12.7464 146.621 14.3756C145.083 16.3133 142.629 16.5822 140.203 16.8479C137.635 17.1292 135.099 17.407 133.718 19.6598C133.321 20.3087 133.213 21.4585 133.096 22.6996C132.894 24.853 132.665 27.2809 130.854 27.8425C127.728 28.8118 127.528 26.1525 127.354 23.8314C127.26 22.5851 127.174 21.4363 126.646 20.9991C120.957 16.2901 120.42 25.3692 120.298 27.4294L120.296 27.4631C120.271 27.8889 120.348 28.2362 120.419 28.5543C120.546 29.1316 120.653 29.613 120.089 30.294C119.794 30.6507 119.391 30.5886 118.966 30.5232C118.536 30.457 118.084 30.3875 117.7 30.7457C116.192 32.1554 116.162 32.2901 115.816 33.8601L115.816 33.8608C115.791 33.9753 115.764 34.0974 115.735 34.2282C115.615 34.7621 115.545 35.2168 115.481 35.6306C115.335 36.5695 115.222 37.2985 114.644 38.2669C114.374 38.7177 114.011 39.1584 113.649 39.5982C112.448 41.0572 111.253 42.5073 113.505 44.2879C112.887 44.2948 107.505 45.7455 107.146 45.9333C106.626 46.2048 106.028 46.9103 105.493 47.5421L105.493 47.5422L105.493 47.5422C105.022 48.0979 104.6 48.5966 104.321 48.6932C101.127 49.7984 101.35 47.4119 101.579 44.9531C101.717 43.4742 101.857 41.9692 101.258 41.1821C109.541 40.9056 114.519 32.9679 115.01 26.8047C115.085 25.8635 114.714 25.0566 114.365 24.2957C114.084 23.6849 113.817 23.1038 113.805 22.5066C113.788 21.666 114.058 21.0964 114.325 20.5307C114.546 20.0635 114.766 19.599 114.822 18.9869C115.064 16.3513 113.98 15.3767 112.564 14.1039C111.851 13.463 111.054 12.7465 110.299 11.7044C107.796 8.24547 109.106 7.71356 112.894 8.33694C115.071 8.6954 117.164 9.33292 119.257 9.97051C121.819 10.751 124.381 11.5317 127.1 11.8006C130.579 12.1448 133.812 11.9759 135.458 9.14259C136.409 7.50701 136.825 3.01028 133.659 2.65738C134.452 2.53254 135.103 2.27789 135.768 2.01789C136.634 1.67892 137.524 1.33084 138.783 1.24937C139.787 1.64057 140.841 1.88849 141.942 1.99261ZM147.694 85.8747C147.695 85.8778 147.697 85.8803 147.699 85.882C147.701 85.8838 147.703 85.8847 147.705 85.8845C147.703 85.8827 147.701 85.8812 147.7 85.8797L147.694 85.8747ZM56.3794 92.4655C56.4811 92.5083 56.5948 92.5071 56.721 92.462C56.536 92.5988 56.2611 92.4881 56.3506 92.4659L56.3492 92.4666C56.3588 92.4663 56.3697 92.4661 56.3801 92.466L56.3794 92.4655ZM56.3728 92.4628C56.3659 92.461 56.3586 92.4621 56.3506 92.4659C56.3564 92.4645 56.3638 92.4634 56.3728 92.4628ZM155.437 132.487C155.1 132.461 155.106 132.452 155.449 132.426C155.509 132.149 155.604 131.857 155.696 131.577C155.913 130.913 156.106 130.323 155.73 130.19C156.861 129.97 156.65 131.987 156.529 133.145L156.529 133.146C156.501 133.417 156.477 133.642 156.477 133.779C155.417 133.784 155.298 133.193 155.437 132.487ZM155.516 131.785L155.514 131.765L155.513 131.74C155.083 131.771 155.084 131.779 155.517 131.812L155.516 131.785ZM65.6526 0.495865C66.0369 0.573975 67.1487 0.678519 67.5157 0.495865L65.6526 0.495865ZM63.0135 57.4794C61.9497 57.2283 61.5655 56.5609 61.277 56.0596C61.1157 55.7795 60.9843 55.5512 60.7808 55.4764C57.9475 54.4346 57.4941 56.3957 57.007 59.4631C56.9192 60.0161 56.8986 60.4945 56.8798 60.9308V60.9308C56.8335 62.0062 56.7983 62.8255 55.7943 63.8743C55.2238 64.4704 54.2833 64.7838 53.3522 65.0941L53.3521 65.0941C52.6756 65.3195 52.0041 65.5433 51.4829 65.8727C50.0117 66.8023 49.3589 67.6545 48.5606 68.6964C48.2439 69.1098 47.9044 69.5531 47.4817 70.0429C46.522 71.155 45.1183 72.2251 43.6615 73.3357C39.7513 76.3166 35.4585 79.5892 38.3404 84.7486C41.4364 90.2917 42.6629 85.6058 43.6093 81.9901C43.9724 80.6031 44.2942 79.3737 44.6644 78.9394C49.3258 73.474 50.3382 78.8154 50.9456 82.0196C51.0448 82.543 51.1332 83.0094 51.2249 83.3623C52.533 88.3941 54.3224 84.7674 55.7974 81.7779C56.2415 80.8778 56.657 80.0355 57.0224 79.5047C57.4606 78.868 58.0086 78.4039 58.5419 77.9521L58.542 77.952C59.2021 77.3929 59.8397 76.8528 60.2192 76.0282C60.4582 75.5086 60.3414 74.859 60.2213 74.1915C60.0232 73.0896 59.8162 71.9388 61.1869 71.2437C62.6392 70.5071 64.3071 71.4035 65.7928 72.2019C66.9191 72.8073 67.9408 73.3563 68.6844 73.095C71.0229 72.2734 68.9195 69.4984 67.2364 67.2779L67.2364 67.2778L67.2362 67.2777L67.236 67.2774L67.236 67.2774L67.2359 67.2772L67.2357 67.2771C66.4623 66.2566 65.7777 65.3534 65.6541 64.8108C65.2942 63.232 65.928 61.8627 66.5614 60.4942C67.2026 59.1089 67.8435 57.7243 67.453 56.1239C66.7978 56.2138 66.2286 56.5263 65.6648 56.8359C64.8508 57.2828 64.048 57.7236 63.0135 57.4794ZM104.606 94.0652C104.521 94.0659 104.439 94.0681 104.362 94.0737C104.444 94.0811 104.526 94.0773 104.606 94.0652ZM119.885 78.7001C120.268 76.0392 118.164 74.6787 115.986 73.27C115.297 72.8242 114.6 72.3736 113.973 71.8753C112.544 70.7421 111.577 69.7957 110.849 68.2058C110.725 67.9342 110.701 67.4777 110.677 67.0051C110.641 66.3205 110.604 65.602 110.257 65.3626C108.411 64.0887 107.376 64.9653 106.133 66.0183C105.538 66.5227 104.895 67.0677 104.092 67.436C101.371 68.6836 101.338 68.6639 99.708 67.7004L99.7079 67.7003L99.707 67.6998L99.7067 67.6996C99.3785 67.5056 98.9857 67.2733 98.4933 67.0055C98.2418 66.8687 98.0045 66.7274 97.7771 66.5919L97.777 66.5919L97.7769 66.5918C96.283 65.7019 95.2184 65.0677 93.3818 67.6662C92.6455 68.7078 92.6838 70.5384 92.7236 72.4392C92.7903 75.6242 92.8611 79.0065 89.2987 79.2054C90.8655 79.8958 90.1598 81.9519 89.4432 84.0394C88.7039 86.1932 87.953 88.3805 89.6749 89.136C93.8527 90.9689 95.0649 82.2797 95.7584 77.3077C95.987 75.6692 96.1593 74.4344 96.3628 74.1129C98.0252 71.4862 103.987 69.2534 105.703 73.1276C106.01 73.821 105.782 74.5679 105.551 75.3259C105.328 76.0601 105.101 76.8047 105.353 77.5214C105.72 78.5632 106.324 78.9442 107.023 79.3859C107.398 79.6226 107.8 79.8768 108.209 80.2596C111.103 82.9712 110.998 83.1372 109.549 85.4425L109.549 85.4426C109.301 85.8379 109.013 86.2962 108.694 86.8409C108.38 87.3761 108.133 88.2236 107.863 89.1534C107.25 91.2572 106.514 93.7826 104.606 94.0653C105.646 94.0579 106.735 94.3117 107.812 94.5625L107.812 94.5625C109.874 95.0425 111.889 95.5119 113.421 94.121C114.488 93.1515 114.306 91.3978 114.132 89.726C114.019 88.6313 113.909 87.5717 114.156 86.7903C114.603 85.3725 115.791 84.1916 116.973 83.0163C118.313 81.683 119.647 80.3568 119.885 78.7001ZM42.891 110.454C42.9281 110.934 42.9706 111.483 43.077 112.15C43.4724 114.627 44.5935 116.042 46.0326 117.859L46.0326 117.859L46.0338 117.861C46.3354 118.241 46.6509 118.64 46.9766 119.069C42.613 119.138 39.1721 123.68 43.9444 126.244C42.0129 125.206 40.5523 126.364 39.365 127.305C37.8721 128.488 36.8112 129.329 35.7897 125.031C35.7152 124.717 35.6162 124.338 35.5111 123.936C35.2841 123.067 35.0287 122.089 34.9298 121.425C34.7172 119.995 34.7543 119.817 34.9188 119.027L34.9188 119.027C34.9472 118.891 34.9793 118.737 35.0145 118.555C35.1041 118.093 35.2819 117.771 35.4461 117.473C35.7958 116.838 36.0835 116.316 35.3241 114.803C34.9285 114.014 34.4408 113.399 33.9779 112.814C33.1349 111.75 32.374 110.789 32.4006 109.08C32.408 108.6 32.6114 108.221 32.8304 107.813C33.1982 107.127 33.6103 106.359 33.2125 104.892C32.9819 104.042 32.5582 103.236 32.1341 102.429C31.625 101.461 31.1154 100.491 30.9394 99.4443C32.7406 99.5204 33.8854 100.892 34.9133 102.125C35.2744 102.557 35.6211 102.973 35.9768 103.309C36.7738 104.062 37.7345 104.595 38.6662 105.111C39.4791 105.562 40.2701 106.001 40.9112 106.563C42.712 108.142 42.775 108.955 42.891 110.454ZM48.6817 97.2964C50.1696 97.42 54.1613 94.1576 54.4184 93.2261C53.134 93.4664 51.8225 92.8698 50.5378 92.2853C49.1009 91.6316 47.6976 90.9931 46.4029 91.5578C44.1095 92.5581 46.55 97.1194 48.6817 97.2964ZM107.04 98.9245C105.406 99.2246 103.553 99.565 102.46 98.9224C101.403 98.3004 99.2975 95.6383 102.358 95.7877C103.136 96.0878 104.033 96.2816 104.918 96.4728C106.791 96.8773 108.61 97.2702 109.132 98.6335C108.558 98.6457 107.824 98.7805 107.04 98.9245ZM86.5906 74.9874C85.7581 74.9377 84.9762 74.788 84.2574 74.6504C82.0964 74.2367 80.5068 73.9324 79.831 76.7827C80.9453 76.7335 82.064 77.027 83.062 77.2888C85.1718 77.8423 86.7422 78.2542 86.5906 74.9874ZM115.566 111.439C114.85 111.078 114.176 110.738 113.642 110.7C114.325 110.592 114.447 109.933 114.563 109.307C114.661 108.781 114.754 108.279 115.172 108.144C115.337 108.186 115.533 108.232 115.748 108.282C117.513 108.693 120.631 109.42 119.864 111.101C118.934 113.138 117.148 112.237 115.566 111.439ZM47.0162 119.153C46.2809 119.191 46.7767 119.354 47.0938 119.393L47.0162 119.153ZM88.4748 71.1251C89.3016 70.5576 89.2754 67.9372 88.0176 67.8187C86.272 68.2097 87.1589 72.0285 88.4748 71.1251ZM153.602 40.4498C153.627 41.0357 156.205 43.5428 156.477 43.5344C156.477 43.4583 156.503 43.2722 156.537 43.0182C156.713 41.7316 157.125 38.7015 155.685 39.3827C155.442 39.4978 155.211 39.6592 154.979 39.8217C154.555 40.1183 154.126 40.4189 153.602 40.4498ZM45.6247 133.859C40.4841 133.859 42.3079 131.474 43.6803 132.209C43.9777 132.369 44.2343 132.645 44.4909 132.922C44.7882 133.242 45.0853 133.562 45.4455 133.7C45.5383 133.736 45.5622 133.772 45.586 133.809C45.5968 133.826 45.6076 133.843 45.6247 133.859ZM23.3002 5.12441C23.3136 4.6879 20.8753 3.932 22.3009 4.90675C22.1554 4.80729 22.2708 4.85501 22.4675 4.93637C22.7792 5.06535 23.2953 5.27884 23.3002 5.12441ZM147.37 49.7508C145.838 49.334 149.993 49.5227 149.474 50.6833C149.049 50.6259 148.68 50.4105 148.31 50.1946C148.007 50.0182 147.704 49.8416 147.37 49.7508Z"; mkAttr "fill" "black"; mkAttr "fill-opacity" "0.2"];
  TEnd "path";
  TChar "
                ";
  TStart "path" [mkAttr "fill-rule" "evenodd"; mkAttr "clip-rule" "evenodd"; mkAttr "d" "M62.1237 32.7476C62.3573 31.9897 61.9727 31.1524 61.5867 30.3118C61.2669 29.6155 60.9462 28.917 60.9751 28.2599C61.0026 27.6354 61.4545 26.5091 61.8849 25.4362L61.8849 25.4362C62.1866 24.6841 62.4778 23.9584 62.6048 23.4502C62.6422 23.3006 62.681 23.1416 62.7218 22.9747C63.5114 19.7418 65.0135 13.5916 70.4253 16.4533C66.087 14.1593 67.8708 12.3317 69.8575 10.2963C70.6302 9.50457 71.4336 8.68143 71.9194 7.78716C72.3207 7.04849 72.643 6.71322 72.8322 6.51644C72.9437 6.40046 73.0089 6.3326 73.0168 6.2586C73.028 6.15421 72.925 6.03763 72.6767 5.75656C72.5728 5.63897 72.4435 5.49258 72.2864 5.30625C71.6938 4.60312 67.4975 3.65516 66.5006 3.67793C62.6748 3.76576 58.5247 7.38124 56.6026 10.2965C55.5712 11.8605 55.9294 12.7303 56.2708 13.5593C56.4764 14.0587 56.676 14.5433 56.5621 15.1559C56.5155 15.4068 56.5448 15.6587 56.5727 15.8983V15.8983C56.6583 16.633 56.7304 17.2521 54.5574 17.3728C51.8511 17.5233 46.786 13.0385 46.7612 10.8425C46.7531 10.109 47.5405 9.27766 48.3284 8.44581C49.7215 6.97504 51.1161 5.50268 48.1177 4.56682C45.8769 3.86763 39.0886 8.36891 38.6687 10.0767C38.4088 11.134 39.1631 12.2751 39.8246 13.2759C40.8794 14.8714 41.6983 16.1103 37.7954 16.0842C37.8093 16.0551 41.4308 18.3689 41.8033 18.8503C42.6458 19.9395 42.9689 20.7325 43.2457 21.412C43.7229 22.5835 44.0627 23.4178 46.6901 24.8508C47.7914 25.4516 48.9668 25.9715 50.1425 26.4916C51.7207 27.1898 53.2996 27.8883 54.7008 28.7827C55.4581 29.266 56.1036 29.8459 56.7338 30.412C58.2053 31.7338 59.5931 32.9805 62.1237 32.7476ZM151.366 9.50447C149.957 10.2435 150.768 10.8966 151.743 11.6822C152.717 12.4667 153.855 13.3834 153.11 14.6496C152.631 15.4628 151.5 15.6364 150.341 15.8143C149.169 15.9941 147.968 16.1784 147.385 17.0325C146.544 18.2619 146.883 19.1285 147.213 19.9694C147.597 20.9516 147.968 21.8988 146.429 23.3482C145.351 24.3645 144.333 24.6906 143.449 24.9737C142.139 25.3935 141.124 25.7186 140.644 28.0592C139.908 31.6443 141.74 34.0263 143.491 36.3018C145.472 38.8772 147.348 41.3162 145.277 45.209C145.182 45.3881 145.064 45.5936 144.935 45.8193L144.935 45.8198C143.85 47.7171 141.949 51.0423 145.558 52.1573C148.194 52.9717 148.035 52.0413 147.871 51.0752C147.747 50.3488 147.62 49.6023 148.674 49.562C148.455 48.9672 151.649 49.6599 151.254 50.5382C152.095 50.6286 152.503 51.0816 152.9 51.5211C153.471 52.1541 154.016 52.7592 155.79 52.2129C157.564 51.6668 157.847 50.0216 158.08 48.6668L158.098 48.5613C158.448 46.5304 157.51 44.7689 156.606 43.0716C155.854 41.6596 155.125 40.2921 155.182 38.851C155.191 38.6427 155.185 38.4713 155.179 38.3149C155.166 37.9454 155.157 37.6606 155.344 37.1754C155.931 36.7633 156.597 36.606 157.342 36.7034C158.495 36.9433 158.817 36.5077 158.307 35.3968C159.311 33.4728 158.932 30.2193 158.599 27.3533C158.448 26.0559 158.307 24.8379 158.307 23.8585C158.307 23.1814 158.426 22.0492 158.565 20.7237C158.93 17.2542 159.435 12.4604 158.307 11.0383C157.649 10.2091 152.498 8.91125 151.366 9.50447ZM153.582 58.3525C150.607 57.594 150.968 59.9162 151.245 61.7033V61.7034V61.7035L151.245 61.7037L151.245 61.7048L151.246 61.7055C151.326 62.2208 151.399 62.6915 151.382 63.0308C151.242 65.9859 150.899 66.7055 147.229 67.1928C146.351 67.3094 145.512 67.0967 144.684 66.8866C143.289 66.5326 141.923 66.1862 140.447 67.4391C139.617 68.1439 139.655 69.01 139.694 69.8808C139.713 70.3064 139.732 70.7331 139.649 71.1426C139.509 71.8369 138.974 72.9159 138.404 74.0659L138.404 74.066C137.354 76.185 136.184 78.5452 137.144 79.1845C137.793 79.6167 139.667 79.1235 141.802 78.562C145.475 77.5959 149.918 76.4273 150.209 79.4206C150.382 81.1953 148.049 81.4674 145.832 81.7261C144.392 81.8942 143 82.0565 142.376 82.6214C142.189 82.7908 141.826 84.0496 141.465 85.304C141.062 86.7024 140.66 88.0952 140.505 87.9673C141.16 88.5091 142.196 87.7715 143.423 86.8974C145.223 85.6155 147.435 84.0401 149.461 85.7759C146.973 81.0246 154.314 81.6998 157.449 81.9881C157.791 82.0196 158.083 82.0464 158.307 82.0611V66.2114C154.754 67.1446 154.983 65.1336 155.238 62.8959C155.457 60.9768 155.695 58.891 153.582 58.3525ZM155.511 126.554H155.511H155.512H155.512H155.512C156.413 126.604 157.324 126.654 158.307 126.641C158.307 127.459 157.569 127.819 156.828 128.18C156.187 128.493 155.544 128.806 155.373 129.418C154.886 131.155 155.954 131.752 156.935 132.3C157.643 132.697 158.307 133.067 158.307 133.823C157.47 133.823 156.529 133.864 155.552 133.907C153.483 133.997 151.253 134.093 149.512 133.823H146.581C146.496 133.443 146.411 133.062 146.326 132.681C146.2 132.622 146.056 132.555 145.898 132.481C144.683 131.913 142.618 130.948 141.712 130.317C137.199 127.172 141.253 123.9 145.492 122.596C142.565 123.497 146.582 126.388 148.001 126.784C149.094 127.088 149.739 126.934 150.494 126.754C150.944 126.646 151.435 126.529 152.083 126.494C153.286 126.43 154.391 126.491 155.511 126.554ZM37.2886 37.8454C36.6716 37.5386 36.0038 37.7321 35.3302 37.9273C34.5527 38.1525 33.7674 38.3801 33.0435 37.8433C32.6529 37.5535 32.7845 36.9667 32.906 36.4256C33.0047 35.9854 33.0967 35.5753 32.8954 35.3797C30.8973 33.4378 30.7769 33.9097 30.4413 35.2252L30.4413 35.2252C30.2905 35.8161 30.0963 36.5773 29.6689 37.3663C28.8088 38.9541 27.7062 39.3199 26.611 39.6833C25.3091 40.1152 24.0176 40.5437 23.1561 43.0171C21.3159 48.3004 17.9634 46.6329 16.7499 42.0143C16.5631 41.3031 15.9943 40.2381 15.3562 39.043C13.7646 36.0625 11.7411 32.273 14.1305 31.145C12.4739 31.9269 10.5189 32.2737 8.56377 32.6205L8.56374 32.6205C6.29134 33.0236 4.01888 33.4267 2.21494 34.513C0.300238 35.666 0.307485 35.9335 0.343384 37.259C0.350265 37.513 0.358198 37.8059 0.353855 38.1513C0.336357 39.5476 0.37875 41.2329 0.418291 42.8048C0.431446 43.3277 0.444285 43.8381 0.454498 44.3211C0.486378 45.8281 1.12304 47.103 1.77597 48.4104C2.16207 49.1836 2.55386 49.9682 2.82964 50.8188C3.40816 52.6032 3.64589 54.4792 3.88295 56.3498C4.04002 57.5893 4.1968 58.8264 4.45221 60.033C4.50527 60.2837 4.5602 60.5329 4.61482 60.7807C5.13277 63.1306 5.624 65.3593 4.24949 67.6266C4.06447 67.9317 3.60208 68.2858 3.1046 68.6668C2.22707 69.3388 1.24034 70.0944 1.47402 70.8128C1.81342 71.8567 3.51136 70.3215 4.38748 69.5293C4.57698 69.3579 4.72803 69.2214 4.81858 69.1532C5.60569 68.5598 5.64845 67.9763 5.68277 67.5078C5.72429 66.9412 5.75348 66.5427 7.0718 66.4981C8.88099 66.4372 10.7276 68.4269 11.8245 69.6088L11.825 69.6094C11.9395 69.7328 12.0458 69.8473 12.143 69.9498C12.7465 70.5859 13.3118 71.3785 13.899 72.2017C15.4223 74.3373 17.0927 76.6793 19.9585 77.0311C28.8431 78.1224 30.6236 67.8791 27.315 63.2263C26.6379 62.2742 25.671 61.3429 24.6857 60.3941C23.02 58.79 21.3021 57.1355 20.8436 55.2444C20.0843 52.1117 22.7722 49.5743 26.4608 51.373C28.2153 52.2285 28.7807 53.7196 29.3506 55.2225C29.8357 56.502 30.3241 57.79 31.5523 58.7017C34.1537 60.6331 34.4 60.0782 34.8321 59.1048C35.0633 58.5838 35.3478 57.9428 36.0753 57.499C38.1851 56.2119 41.8279 55.1525 42.3316 58.3595C42.5087 59.4875 41.5724 60.448 40.6192 61.4258C39.4839 62.5904 38.3246 63.7797 38.994 65.3059C40.2879 68.2555 41.4581 66.6601 42.4568 65.2985C42.669 65.0091 42.8735 64.7303 43.0698 64.5079C45.8557 61.3516 48.633 58.0588 47.8027 53.9147C47.2707 51.2584 45.4163 49.3654 43.5297 47.4396C42.6722 46.5642 41.808 45.682 41.0584 44.7183C40.61 44.1419 40.1833 43.0798 39.7311 41.9542C39.0348 40.221 38.2781 38.3375 37.2886 37.8454ZM86.9765 108.485C86.9506 109.737 86.9248 110.986 87.4891 112.213C88.7686 114.995 89.4705 116.66 87.7033 119.261C87.2239 119.966 86.7243 120.483 86.2421 120.981C85.4366 121.813 84.6799 122.595 84.148 124.125C83.9863 124.59 83.8708 125.02 83.763 125.422L83.763 125.422C83.3725 126.878 83.0836 127.954 81.0647 128.929C76.4187 131.172 72.9469 129.117 69.8943 126.547C69.6533 126.344 69.4236 126.154 69.204 125.971C67.6577 124.687 66.612 123.819 65.6675 122.064C65.3582 121.49 65.4067 120.988 65.4512 120.528C65.5221 119.794 65.583 119.165 64.1726 118.509C62.8043 117.872 61.4659 118.115 60.1214 118.359C58.4368 118.664 56.7428 118.971 54.9684 117.553C50.9484 114.342 51.9718 108.065 55.6858 105.339C56.7338 104.57 57.6946 104.117 58.4917 103.74C60.3362 102.87 61.3043 102.413 60.4496 99.4141C59.6872 98.8005 59.1674 98.0656 58.8902 97.2095C58.853 96.4828 59.0189 95.7887 59.3881 95.1277C59.2882 94.674 59.4408 94.2244 59.5767 93.824C59.8566 92.9992 60.0656 92.3834 57.8508 92.3717C58.4654 91.9187 58.6401 90.9249 58.8226 89.8863C59.0891 88.3696 59.3724 86.7573 61.0671 86.5948C63.9884 86.3144 64.3146 89.3042 64.5594 91.5482C64.6395 92.2823 64.7109 92.9366 64.8615 93.3705C66.0426 96.7725 67.4271 97.9421 71.2119 96.5924C72.1903 96.2434 76.7818 93.7798 77.1355 93.2416C75.4915 95.7428 78.864 98.1091 81.3843 99.8774C82.004 100.312 82.5723 100.711 83.0017 101.067C83.1751 101.21 83.3505 101.352 83.526 101.495C84.5644 102.337 85.6053 103.181 86.2431 104.298C87.0345 105.683 87.0055 107.086 86.9765 108.485ZM128.423 126.988C126.979 126.832 121.692 124.785 122.335 123.078C123.963 118.751 132.454 123.641 135.39 125.332C135.593 125.449 135.769 125.551 135.915 125.633C134.804 125.692 133.726 126.009 132.652 126.326C131.259 126.737 129.872 127.146 128.423 126.988Z"; mkAttr "fill" "black"; mkAttr "fill-opacity" "0.4"];
  TEnd "path";
  TChar "
                ";
  TStart "path" [mkAttr "fill-rule" "evenodd"; mkAttr "clip-rule" "evenodd"; mkAttr "d" "M43.247 2.4112C43.4532 3.92187 46.4117 6.2163 48.3208 4.85377C49.5387 5.29495 47.7352 2.06265 47.4339 1.76245C45.8448 0.179932 42.8405 -0.563483 43.247 2.4112ZM76.2674 4.35599C75.5297 4.18249 74.8277 4.01736 74.2418 3.81073C73.7034 3.62087 73.67 1.56805 73.8942 1.1594C74.3321 0.360833 75.8441 0.450956 77.2231 0.533151C77.6287 0.557322 78.0227 0.580807 78.3745 0.580807L91.6674 0.580807C89.8084 1.32065 91.8167 2.07513 92.7738 2.28593C93.5498 2.06389 99.1361 6.19899 98.9811 7.92931C98.8967 8.87328 98.2338 9.56063 97.5548 10.2647C96.7407 11.1088 95.9035 11.9769 96.0126 13.3401C96.0786 14.1643 96.8804 15.5173 97.7793 17.0341C100.029 20.8301 102.886 25.6521 96.3403 25.7791C93.2883 25.8383 93.3648 24.4033 93.4543 22.7243C93.5139 21.6067 93.5792 20.3811 92.7313 19.4161C92.2407 18.858 91.4524 18.5007 90.6606 18.1418C89.6489 17.6831 88.6314 17.2219 88.2219 16.3359C88.0218 15.9029 88.1752 14.9676 88.3404 13.9609C88.7512 11.4568 89.2346 8.51013 84.5301 11.7485C84.0524 12.0775 83.7571 12.7188 83.4614 13.3612C82.8926 14.5969 82.3221 15.8362 80.4473 14.8608C78.8239 14.0162 79.722 12.3529 80.6241 10.6821C81.3088 9.41395 81.9959 8.14146 81.5844 7.21944C80.7802 5.41748 78.3781 4.85247 76.2674 4.35599ZM156.698 91.805C153.943 92.5245 152.355 89.9642 151.081 87.911C150.213 86.5132 149.492 85.3503 148.647 85.6174C146.416 83.6918 144.26 85.4524 142.475 86.9098L142.475 86.9098C141.8 87.4609 141.178 87.9686 140.626 88.2173C140.74 88.2891 135.648 87.0914 136.683 86.8898C129.862 84.5716 129.78 89.7817 129.709 94.3228C129.679 96.2818 129.65 98.1163 129.083 99.1681C128.06 101.066 126.624 101.795 124.267 102.623C123.44 102.914 122.53 103.081 121.623 103.247C119.722 103.596 117.835 103.942 116.764 105.415C116.566 105.688 116.372 106.554 116.236 107.16C116.157 107.514 116.098 107.779 116.069 107.785C116.675 107.938 120.946 109.294 121.388 109.66C121.793 109.994 121.898 110.583 121.993 111.122C122.074 111.577 122.148 111.996 122.39 112.201C123.084 112.787 123.773 113.192 124.432 113.58C125.548 114.236 126.576 114.841 127.394 116.186C127.74 116.755 127.917 117.418 128.093 118.074C128.52 119.669 128.936 121.223 131.729 121.279C134 121.324 135.345 119.558 136.044 118.052C136.359 117.374 136.275 115.49 136.181 113.369C135.951 108.195 135.659 101.614 140.932 107.711C141.449 108.309 141.647 108.714 141.813 109.054C142.087 109.616 142.274 110 143.678 110.786C144.261 111.111 144.84 111.126 145.401 111.141C146.212 111.162 146.984 111.181 147.671 112.142C148.381 113.134 148.028 114.085 147.818 114.649C147.582 115.284 147.527 115.431 149.37 114.602C153.657 112.673 153.825 108.358 153.966 104.741V104.741V104.741C153.994 104.023 154.021 103.333 154.079 102.694C154.283 100.444 154.78 99.1017 155.707 97.1137C155.762 96.9962 155.917 96.7464 156.124 96.4156C157.154 94.7624 159.444 91.0875 156.698 91.805ZM72.1973 128.551C71.417 127.459 70.4216 126.736 69.3733 125.974C68.8918 125.624 68.3992 125.266 67.9111 124.861C67.6339 124.631 67.3163 124.429 66.9979 124.226L66.9977 124.226C66.3726 123.829 65.7441 123.429 65.4111 122.808C65.1427 122.308 65.2393 121.632 65.3356 120.957C65.4463 120.181 65.5566 119.408 65.1119 118.909C63.8448 117.486 62.127 117.827 60.3241 118.184C57.9169 118.661 55.358 119.167 53.5179 115.548C52.2026 112.961 51.5582 109.234 53.2752 106.713C53.9973 105.652 55.5911 104.92 57.1567 104.2C59.1051 103.305 61.0097 102.43 61.1359 100.967C61.209 100.12 60.5708 99.5094 59.9079 98.8754C59.3271 98.32 58.7273 97.7464 58.5706 96.9793C58.4384 96.3326 58.7841 95.5579 59.1129 94.8212C59.7526 93.3878 60.3283 92.0977 57.1957 92.1718C57.2491 92.192 57.2027 92.2117 57.1565 92.2313C57.1445 92.2363 57.1326 92.2414 57.1224 92.2464C57.0761 92.2276 56.7244 92.3743 56.3061 92.5487L56.306 92.5487L56.3059 92.5487C55.7575 92.7774 55.0946 93.0538 54.8549 93.0678C54.8421 93.0651 54.7142 93.1944 54.5034 93.4076C53.5406 94.3815 50.8478 97.1049 49.4865 96.9824C46.8071 96.7415 45.7563 91.5354 47.2046 91.2673C46.5904 91.1692 46.126 90.8403 45.6471 90.501C44.8015 89.902 43.9106 89.2708 42.0693 89.8216C40.6266 90.2529 40.2698 90.8662 39.7968 91.6791C39.6421 91.945 39.475 92.2322 39.2534 92.5413C38.5608 93.5077 38.1722 94.1554 37.9227 94.5713C37.6654 95.0003 37.5559 95.1828 37.4133 95.2141C37.3076 95.2373 37.1838 95.1777 36.9682 95.0739C36.5688 94.8816 35.8546 94.5377 34.358 94.2883L34.3041 94.5924C34.0981 95.753 34.0174 96.2075 34.1729 96.5568C34.273 96.7816 34.4708 96.9629 34.796 97.2608C35.0539 97.4971 35.3919 97.8067 35.8246 98.2695C36.3723 98.8553 37.004 99.3945 37.6345 99.9327C38.0849 100.317 38.5347 100.701 38.9528 101.101C39.4753 101.601 44.3041 106.591 43.3006 106.832C44.2685 107.011 44.3667 109.313 44.4609 111.521C44.5269 113.069 44.591 114.571 44.9516 115.263C45.3105 115.952 45.8877 116.545 46.464 117.137C46.9281 117.614 47.3916 118.09 47.7398 118.616C48.6819 120.037 48.8272 121.701 48.9744 123.388C49.1156 125.005 49.2587 126.643 50.1076 128.108C50.3296 128.491 50.6928 128.808 51.0524 129.122C51.3976 129.423 51.7394 129.721 51.9495 130.072C52.0887 130.305 52.3397 130.523 52.5799 130.733L52.58 130.733C52.7214 130.856 52.8591 130.976 52.9678 131.093C53.7076 131.892 53.7946 132.311 53.8476 132.566C53.8648 132.649 53.8784 132.714 53.9095 132.77C54.0282 132.982 54.4011 133.052 56.195 133.39L56.2199 133.394C59.4959 134.01 68.8418 133.717 71.4142 131.621C71.783 131.321 72.1633 130.506 72.4497 129.893C72.641 129.483 72.7904 129.164 72.8666 129.146C72.489 128.966 72.3611 128.784 72.2331 128.601C72.2212 128.585 72.2094 128.568 72.1973 128.551ZM103.179 126.451C102.289 126.353 101.634 126.066 100.993 125.786C100.109 125.399 99.2526 125.024 97.8446 125.17C96.6429 125.294 95.7247 125.861 94.804 126.429C94.267 126.76 93.7292 127.092 93.1338 127.337C91.683 127.934 89.1726 128.192 86.4353 128.473C80.9328 129.038 74.5139 129.696 73.9436 133.394C74.8734 133.394 76.2917 133.482 77.9362 133.583C83.0135 133.896 90.2481 134.343 91.9286 132.759C92.7887 131.948 92.6708 131.267 92.5712 130.693C92.4282 129.868 92.3231 129.262 95.2044 128.802C96.1451 128.652 96.8337 128.892 97.5195 129.132C98.5692 129.498 99.6124 129.862 101.543 128.82C101.814 128.674 105.302 126.685 103.179 126.451ZM101.4 106.147C106.345 101.019 107.68 108.367 107.68 111.412C107.679 114.889 101.674 117.458 99.8128 113.716C99.1948 112.474 100.182 107.41 101.4 106.147ZM156.999 7.73732C156.337 7.26753 155.713 6.32455 155.058 5.33663C154.051 3.81592 152.973 2.18874 151.582 2.01698C147.818 1.55265 148.256 5.9924 148.612 9.60597C148.799 11.4943 148.963 13.157 148.493 13.7764C148.546 13.7798 148.773 13.9206 149.101 14.1242C150.685 15.1065 154.625 17.5496 152.646 13.0643C152.47 12.6643 151.772 12.3384 151.076 12.0131C149.788 11.4116 148.506 10.8122 150.53 9.75064C151.819 9.0751 153.251 9.7519 154.636 10.4065C155.614 10.8684 156.568 11.3193 157.432 11.2761C157.432 11.0644 157.448 10.8054 157.466 10.5237C157.53 9.49892 157.614 8.17421 156.999 7.73732ZM155.77 50.9136C156.164 50.3771 156.534 49.8744 156.847 49.6882C157.037 49.5748 157.68 66.3605 156.998 66.1514C153.698 68.1169 154.112 63.7508 154.369 61.0459C154.461 60.0737 154.533 59.316 154.405 59.1441C153.928 58.5056 152.942 58.2709 151.953 58.0356C150.588 57.7106 149.217 57.3843 149.176 55.9903C149.16 55.4012 151.278 53.7683 151.813 53.4124C152.007 53.2836 152.02 53.0621 152.034 52.8335C152.049 52.5898 152.064 52.3381 152.298 52.182C152.44 52.0875 152.785 52.181 153.171 52.2856C153.67 52.4209 154.237 52.5746 154.519 52.3623C154.939 52.0448 155.368 51.4616 155.77 50.9136ZM119.362 63.9915C118.862 63.1418 118.356 62.2801 117.215 61.775C114.184 60.4327 114.124 59.8068 114.022 58.7471C113.962 58.1223 113.888 57.3467 113.182 56.1846C111.464 53.3584 107.125 53.5541 103.684 53.7093C102.984 53.7409 102.322 53.7708 101.726 53.7732C100.963 53.7762 100.412 53.7414 99.982 53.7143C98.6213 53.6284 98.4784 53.6194 96.7152 55.1321C95.9966 55.7487 95.2913 56.4733 94.5683 57.216L94.5682 57.2161C93.7551 58.0515 92.9196 58.9099 92.0179 59.6631C90.0846 61.278 85.6015 65.3674 88.8769 67.6261C87.2754 67.9828 87.773 70.6957 88.894 71.2971C88.7591 71.3488 87.3765 74.5886 87.4481 74.7654C86.7238 74.7223 86.0335 74.544 85.3696 74.3725C83.8881 73.9897 82.538 73.641 81.2353 74.9053C80.1155 75.9918 80.48 77.5685 80.8451 79.148C81.1524 80.477 81.46 81.808 80.8844 82.8505C79.2668 85.7802 73.9719 86.0608 71.1942 84.3065C69.2919 83.1048 64.9444 79.223 63.7341 77.4322C61.6669 74.3736 62.4863 71.6361 66.8112 71.7467C67.8556 71.7735 68.6087 72.2177 69.1573 72.5412C69.979 73.0259 70.3418 73.2398 70.537 71.3745C70.6229 70.5538 69.7432 69.5018 69.0274 68.6456C68.7599 68.3257 68.5153 68.0332 68.3525 67.7903C68.2377 67.6191 68.1265 67.4543 68.019 67.2949L68.0172 67.2922C66.1704 64.5547 65.4217 63.4449 66.8142 60.1024C66.884 59.935 66.9512 59.7751 67.0156 59.6216L67.0159 59.621C68.015 57.2426 68.3602 56.4209 67.4121 53.7005C66.3213 50.5702 66.0185 49.2499 66.277 45.9414C66.2887 45.792 66.3099 45.6178 66.3332 45.4264V45.4263C66.5011 44.0492 66.7778 41.7801 64.3856 41.4357C64.7518 40.8996 66.1208 36.9896 65.7888 36.6212C67.8284 36.8603 68.1542 36.4868 68.7581 35.7947C69.141 35.3558 69.6356 34.7889 70.7497 34.1687C71.5224 33.7386 72.5039 33.6332 73.4964 33.5266C74.8831 33.3777 76.2914 33.2265 77.1818 32.184C77.9936 31.2339 78.0265 29.6933 78.0588 28.1795C78.0826 27.0651 78.106 25.9653 78.4398 25.1263C79.0531 23.584 79.872 21.6689 81.9463 20.9769C86.9458 19.3094 86.5496 23.5969 86.2713 26.6079L86.2713 26.608C86.2236 27.1238 86.1794 27.602 86.1664 28.0065C86.0016 33.1236 85.9219 38.5636 86.9243 43.5024C87.9417 48.5161 88.7918 46.5963 89.9428 43.9973C90.1636 43.4986 90.3955 42.9749 90.6418 42.4704C91.0763 41.5804 91.7933 40.9283 92.5067 40.2795C93.1722 39.6742 93.8347 39.0717 94.2622 38.2813C94.5838 37.6866 94.555 37.0692 94.5272 36.4715C94.4886 35.6447 94.4518 34.8557 95.3474 34.2174C96.0195 33.7384 96.8171 33.9001 97.5453 34.0477C98.1472 34.1697 98.7017 34.2821 99.0984 34.015C99.8696 33.4959 99.9839 32.0474 100.102 30.5529C100.27 28.4196 100.446 26.1925 102.55 26.441C104.611 26.6845 104.802 28.7766 104.961 30.5359C105.074 31.7796 105.172 32.857 105.906 32.9972C105.514 33.1021 105.041 33.2117 104.535 33.329C101.317 34.0749 96.7566 35.1323 103.055 37.2471C101.121 37.43 101.683 39.7313 101.941 40.79C101.96 40.8674 101.977 40.9383 101.992 41.0011C102.062 41.3048 102.425 41.5561 102.791 41.809C103.172 42.0729 103.556 42.3386 103.614 42.6678C103.741 43.4001 103.54 43.7653 103.341 44.1272C103.196 44.3915 103.051 44.6541 103.036 45.0567C103.017 45.5932 102.963 46.0992 102.915 46.5549C102.704 48.5634 102.595 49.5973 105.901 47.9752C106.833 47.5177 107.048 46.8894 107.217 46.3967C107.452 45.7103 107.597 45.2872 109.466 45.9569C109.537 46.1497 109.705 46.2655 109.969 46.3041C110.248 46.2233 110.7 46.5284 111.234 46.8887C112.047 47.4366 113.048 48.1122 113.916 47.7526C115.644 47.0375 114.994 45.8226 114.405 44.7227C114.187 44.3142 113.977 43.9215 113.9 43.5762C113.321 40.9664 113.693 40.7925 114.531 40.4007C115.129 40.121 115.965 39.7301 116.861 38.2618C117.601 37.0502 117.124 35.8411 116.676 34.7084C116.084 33.2109 115.545 31.847 117.942 30.7876C124.05 28.0884 125.004 34.3618 124.236 37.3479L124.146 37.6959C123.309 40.9368 122.685 43.3526 124.267 46.6947C125.351 48.9864 127.13 50.3405 129.038 51.7921L129.038 51.7922C129.998 52.523 130.991 53.2785 131.944 54.1907C135.526 57.6195 135.816 61.7061 131.727 64.9927C128.453 67.6239 124.054 68.4043 120.634 65.6467C120.065 65.1881 119.715 64.5928 119.362 63.9915ZM113.122 94.8436C108.398 94.2175 106.767 94.0971 103.199 94.9759C103.428 95.2054 103.44 95.3733 103.237 95.4797C103.838 95.7105 104.755 95.8669 105.736 96.0343C107.487 96.3331 109.443 96.6667 110.17 97.5203C110.35 97.731 110.201 98.5595 110.065 99.312L110.065 99.312L110.065 99.3123C109.947 99.9714 109.839 100.572 109.972 100.648C109.864 100.586 114.183 95.3888 114.849 94.892C114.271 94.9126 113.696 94.8966 113.122 94.8436ZM31.2317 108.277L31.2321 108.277C31.4232 108.384 31.5582 108.46 31.5872 108.471C32.0908 108.658 32.6228 108.74 33.1828 108.717C32.925 110.121 30.8707 112.723 28.6317 112.294C25.9681 111.783 26.9887 110.61 28.0705 109.368C28.6579 108.693 29.2633 107.998 29.3069 107.376C29.3188 107.208 30.5901 107.918 31.2315 108.277L31.2316 108.277L31.2317 108.277ZM30.1187 101.632C30.5158 102.186 31.2043 102.616 31.8647 103.029C32.1596 103.213 32.4489 103.394 32.7041 103.58C33.0698 103.041 32.7133 101.975 32.3622 100.925C32.0697 100.05 31.7809 99.1862 31.9163 98.6468C30.2098 98.5915 29.3721 100.591 30.1187 101.632ZM61.1522 0.69232C59.5224 1.6115 53.8064 4.8353 53.4891 1.49698C53.4632 1.19185 53.4406 0.88638 53.4215 0.580909L61.3503 0.580909C61.2936 0.612587 61.2272 0.650013 61.1522 0.69232Z"; mkAttr "fill" "white"; mkAttr "fill-opacity" "0.2"];
  TEnd "path";
  TChar "
            ";
  TEnd "g";
  TChar "
        ";
  TEnd "g";
  TChar "
        ";
  TStart "g" [mkAttr "transform" "translate(52, 124)"];
  TChar "
            ";
  TStart "rect" [mkAttr "x" "4"; mkAttr "y" "5"; mkAttr "width" "68"; mkAttr "height" "22"; mkAttr "rx" "5"; mkAttr "fill" "black"; mkAttr "fill-opacity" "0.2"];
  TEnd "rect";
  TChar "
            ";
  TStart "rect" [mkAttr "x" "8"; mkAttr "y" "9"; mkAttr "width" "60"; mkAttr "height" "14"; mkAttr "rx" "2"; mkAttr "fill" "white"];
  TEnd "rect";
  TChar "
            ";
  TStart "rect" [mkAttr "x" "18"; mkAttr "y" "9"; mkAttr "width" "4"; mkAttr "height" "14"; mkAttr "fill" "black"; mkAttr "fill-opacity" "0.1"];
  TEnd "rect";
  TChar "
            ";
  TStart "rect" [mkAttr "x" "42"; mkAttr "y" "9"; mkAttr "width" "4"; mkAttr "height" "14"; mkAttr "fill" "black"; mkAttr "fill-opacity" "0.1"];
  TEnd "rect";
  TChar "
            ";
  TStart "rect" [mkAttr "x" "30"; mkAttr "y" "9"; mkAttr "width" "4"; mkAttr "height" "14"; mkAttr "fill" "black"; mkAttr "fill-opacity" "0.1"];
  TEnd "rect";
  TChar "
            ";
  TStart "rect" [mkAttr "x" "54"; mkAttr "y" "9"; mkAttr "width" "4"; mkAttr "height" "14"; mkAttr "fill" "black"; mkAttr "fill-opacity" "0.1"];
  TEnd "rect";
  TChar "
        ";
  TEnd "g";
  TChar "
        ";
  TStart "g" [mkAttr "transform" "translate(38, 76)"];
  TChar "
            ";
  TStart "path" [mkAttr "fill-rule" "evenodd"; mkAttr "clip-rule" "evenodd"; mkAttr "d" "M52 48C65.2548 48 76 37.2548 76 24C76 10.7452 65.2548 0 52 0C38.7452 0 28 10.7452 28 24C28 37.2548 38.7452 48 52 48Z"; mkAttr "fill" "white"; mkAttr "fill-opacity" "0.4"];
  TEnd "path";
  TChar "
            ";
  TStart "path" [mkAttr "fill-rule" "evenodd"; mkAttr "clip-rule" "evenodd"; mkAttr "d" "M52 44C63.0457 44 72 35.0457 72 24C72 12.9543 63.0457 4 52 4C40.9543 4 32 12.9543 32 24C32 35.0457 40.9543 44 52 44Z"; mkAttr "fill" "black"; mkAttr "fill-opacity" "0.8"];
  TEnd "path";
  TChar "
            ";
  TStart "path" [mkAttr "d" "M64.5726 15.8153C64.8743 16.2779 65.4939 16.4082 65.9565 16.1064C66.419 15.8046 66.5494 15.185 66.2476 14.7225L64.5726 15.8153ZM61.5815 9.95547C61.1256 9.64384 60.5033 9.76084 60.1917 10.2168C59.88 10.6728 59.997 11.295 60.453 11.6067L61.5815 9.95547ZM56.3568 9.64222C56.8854 9.80237 57.4437 9.50373 57.6039 8.97518C57.764 8.44663 57.4654 7.88832 56.9368 7.72816L56.3568 9.64222ZM45.7206 8.19769C45.2074 8.40179 44.9569 8.98326 45.161 9.49645C45.3651 10.0096 45.9465 10.2602 46.4597 10.0561L45.7206 8.19769ZM41.7603 13.0388C42.1638 12.6617 42.1852 12.0289 41.8081 11.6254C41.431 11.2219 40.7981 11.2005 40.3947 11.5776L41.7603 13.0388ZM36.4567 17.1052C36.2325 17.6099 36.4599 18.2008 36.9646 18.425C37.4694 18.6492 38.0603 18.4218 38.2845 17.9171L36.4567 17.1052ZM66.2476 14.7225C65.0212 12.8427 63.433 11.2208 61.5815 9.95547L60.453 11.6067C62.0875 12.7238 63.49 14.1559 64.5726 15.8153L66.2476 14.7225ZM56.9368 7.72816C55.3733 7.25438 53.7155 7 52.0001 7V9C53.5169 9 54.9793 9.2248 56.3568 9.64222L56.9368 7.72816ZM52.0001 7C49.784 7 47.6646 7.42456 45.7206 8.19769L46.4597 10.0561C48.1724 9.37496 50.0413 9 52.0001 9V7ZM40.3947 11.5776C38.7378 13.1261 37.3906 15.0029 36.4567 17.1052L38.2845 17.9171C39.108 16.0633 40.2968 14.4066 41.7603 13.0388L40.3947 11.5776Z"; mkAttr "fill" "white"; mkAttr "fill-opacity" "0.9"];
  TEnd "path";
  TChar "
            ";
  TStart "path" [mkAttr "fill-rule" "evenodd"; mkAttr "clip-rule" "evenodd"; mkAttr "d" "M52 34C57.5228 34 62 29.5228 62 24C62 18.4772 57.5228 14 52 14C46.4772 14 42 18.4772 42 24C42 29.5228 46.4772 34 52 34Z"; mkAttr "fill" "#C6080C"];
  TEnd "path";
  TChar "
            ";
  TStart "path" [mkAttr "fill-rule" "evenodd"; mkAttr "clip-rule" "evenodd"; mkAttr "d" "M52 28C54.2091 28 56 26.2091 56 24C56 21.7909 54.2091 20 52 20C49.7909 20 48 21.7909 48 24C48 26.2091 49.7909 28 52 28Z"; mkAttr "fill" "#EE9337"];
  TEnd "path";
  TChar "
            ";
  TStart "path" [mkAttr "fill-rule" "evenodd"; mkAttr "clip-rule" "evenodd"; mkAttr "d" "M52 25C52.5523 25 53 24.5523 53 24C53 23.4477 52.5523 23 52 23C51.4477 23 51 23.4477 51 24C51 24.5523 51.4477 25 52 25Z"; mkAttr "fill" "#F5F94F"];
  TEnd "path";
  TChar "
        ";
  TEnd "g";
  TChar "
    ";
  TEnd "g";
  TChar "
";
  TEnd "svg"]%string.

