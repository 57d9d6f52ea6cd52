*.vo
*.vok
*.vos
*.glob
*.aux
.*.aux
.nra.cache
.lia.cache
Makefile.conf
rocq/Makefile
.Makefile.d
rocq/.Makefile.d
__pycache__/
