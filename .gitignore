.lia.cache
*.vo
*.vok
*.vos
*.glob
.*.aux
Makefile
Makefile.conf
.Makefile.d
__pycache__
.nia.cache
.nra.cache
.lia.cache
